(** C93: the file of hard coded headers. *)
From Coq Require Import Strings.String.
From Verif Require Import Base BlockModel DbTable DbModel CodecLemmas ExtractModel ExtractSpec ExtractProofs ExtractLemmas.
Open Scope list_scope.
Open Scope N_scope.

(** C93: the text of a header is its unpadded base64, and no other header has it. *)
Theorem C93_base64 : forall b, wf_bytes b -> b <> [] -> exists text, base64encode b = Done text /\ base64_of text b.
Proof. exact base64_text. Qed.
Print Assumptions C93_base64.
Theorem C93_base64_determines : forall text b b', wf_bytes b -> wf_bytes b' -> base64_of text b -> base64_of text b' -> b = b'.
Proof. exact base64_unique. Qed.
Print Assumptions C93_base64_determines.

(** Over every database, step and number of headers: the file is the array of the headers at the multiples of the step below the first
    height without a canonical block, which is the one printed. *)
Theorem C93_file : forall d head_header step l fuel s, 0 < step -> (length l < fuel)%nat -> N.of_nat (length l) * step < 2 ^ 64 - 1 ->
  (forall j rlp, nth_error l j = Some rlp -> wf_bytes rlp /\ rlp <> [] /\ header_at d (N.of_nat j * step) rlp) ->
  ~ canonical_at d (N.of_nat (length l) * step) -> final_status d head_header = Some s ->
  exists texts, Forall2 base64_of texts l /\ extract_headers fuel d head_header step = Some (array_text texts, Some (N.of_nat (length l) * step), s).
Proof. exact file_lemma. Qed.
Print Assumptions C93_file.
(** A block without a header ends the command with status 1; the file has the headers before it. *)
Theorem C93_missing_header : forall d head_header step l fuel hash, 0 < step -> (length l < fuel)%nat -> N.of_nat (length l) * step < 2 ^ 64 - 1 ->
  (forall j rlp, nth_error l j = Some rlp -> wf_bytes rlp /\ rlp <> [] /\ header_at d (N.of_nat j * step) rlp) ->
  blen hash = 32 -> lookup (d kCanonicalHashes) (block_key (N.of_nat (length l) * step)) = Some hash -> lookup (d kHeaders) (block_key_hash (N.of_nat (length l) * step) hash) = None ->
  exists texts, Forall2 base64_of texts l /\ extract_headers fuel d head_header step = Some (array_text texts, None, 1).
Proof. exact missing_lemma. Qed.
Print Assumptions C93_missing_header.
(** Whenever the command gets through, the file is right and complete. *)
Theorem C93_sound : forall d head_header step fuel file n s, 0 < step -> (forall n, canonical_at d n -> n + step < 2 ^ 64) ->
  (forall n v, lookup (d kCanonicalHashes) (block_key n) = Some v -> blen v = 32) ->
  (forall k v, lookup (d kHeaders) k = Some v -> wf_bytes v) -> extract_headers fuel d head_header step = Some (file, Some n, s) ->
  exists l texts, Forall2 base64_of texts l /\ file = array_text texts /\ (forall j rlp, nth_error l j = Some rlp -> header_at d (N.of_nat j * step) rlp)
    /\ n = N.of_nat (length l) * step /\ (~ canonical_at d n \/ n = 2 ^ 64 - 1) /\ (s = 0 \/ s = 1).
Proof. exact sound_lemma. Qed.
Print Assumptions C93_sound.
(** The status is 0 if the last header is known, 1 otherwise. *)
Theorem C93_status : forall d head_header hash n v, blen hash = 32 -> lookup head_header (str "LastHeader"%string) = Some hash ->
  lookup (d kHeaderNumbers) hash = Some v -> blen v = 8 -> be_to_N v = n ->
  (forall h, read_header d n hash = Done (Some h) -> final_status d head_header = Some 0) /\ (read_header d n hash = Done None -> final_status d head_header = Some 1).
Proof. exact status_lemma. Qed.
Print Assumptions C93_status.
Theorem C93_status_unknown : forall d head_header, lookup head_header (str "LastHeader"%string) = None -> final_status d head_header = Some 1.
Proof. exact status_none. Qed.
Print Assumptions C93_status_unknown.

Example C93_case : extract_headers 5 ext_db [] 2 = Some (array_text [str "TWFu"%string; str "TWE"%string], Some 4, 1)
  /\ headers_from ext_db 2 [[77; 97; 110]; [77; 97]] /\ ~ canonical_at ext_db 4.
Proof. exact ext_case. Qed.
Example C93_case_status : extract_headers 3 ext_db2 [(str "LastHeader"%string, h0)] 100000 = Some (array_text [ext_text], Some 100000, 0) /\ blen ext_text = 695.
Proof. exact ext_case2. Qed.
