(** The file of hard coded headers: theorems in their final form and a case. *)
From Coq Require Import Strings.String.
From Verif Require Import Base BaseFacts BlockModel DbTable DbModel DbProofs IndexModel CodecLemmas ExtractModel ExtractSpec ExtractProofs.
Open Scope list_scope.
Open Scope N_scope.

Definition headers_from (d : database) (step : N) (l : list bytes) : Prop :=
  forall j rlp, nth_error l j = Some rlp -> wf_bytes rlp /\ rlp <> [] /\ header_at d (N.of_nat j * step) rlp.

Lemma loop_all d step l fuel : 0 < step -> (length l <= fuel)%nat -> N.of_nat (length l) * step < 2 ^ 64 - 1 -> headers_from d step l ->
  exists texts, Forall2 base64_of texts l /\ extract_loop fuel d step 0 new_file = extract_loop (fuel - length l) d step (N.of_nat (length l) * step) (file_after texts).
Proof.
  intros S F B H. destruct (loop_goes d step l fuel 0 new_file F) as [ts [A E]].
  - rewrite N.add_0_l. lia.
  - intros j rlp J. rewrite N.add_0_l. destruct (H j rlp J) as [W [NE HD]]. split; [ | auto ].
    assert (j < length l)%nat by (apply nth_error_Some; congruence). nia.
  - exists ts. split; [ exact A | ]. rewrite N.mul_0_l, N.add_0_l in E. exact E.
Qed.

Lemma file_lemma d head_header step l fuel s : 0 < step -> (length l < fuel)%nat -> N.of_nat (length l) * step < 2 ^ 64 - 1 -> headers_from d step l ->
  ~ canonical_at d (N.of_nat (length l) * step) -> final_status d head_header = Some s ->
  exists texts, Forall2 base64_of texts l /\ extract_headers fuel d head_header step = Some (array_text texts, Some (N.of_nat (length l) * step), s).
Proof.
  intros S F B H N St. destruct (loop_all d step l fuel S ltac:(lia) B H) as [ts [A E]]. exists ts. split; [ exact A | ].
  unfold extract_headers. rewrite E. destruct (fuel - length l)%nat as [ | k ] eqn:K; [ lia | ]. cbn [extract_loop].
  rewrite (proj2 (N.ltb_lt _ _) B), (not_canonical d _ N), St. now rewrite file_array.
Qed.
Lemma missing_lemma d head_header step l fuel hash : 0 < step -> (length l < fuel)%nat -> N.of_nat (length l) * step < 2 ^ 64 - 1 -> headers_from d step l ->
  blen hash = 32 -> lookup (d kCanonicalHashes) (block_key (N.of_nat (length l) * step)) = Some hash -> lookup (d kHeaders) (block_key_hash (N.of_nat (length l) * step) hash) = None ->
  exists texts, Forall2 base64_of texts l /\ extract_headers fuel d head_header step = Some (array_text texts, None, 1).
Proof.
  intros S F B H L C M. destruct (loop_all d step l fuel S ltac:(lia) B H) as [ts [A E]]. exists ts. split; [ exact A | ].
  unfold extract_headers. rewrite E. destruct (fuel - length l)%nat as [ | k ] eqn:K; [ lia | ]. cbn [extract_loop].
  rewrite (proj2 (N.ltb_lt _ _) B). unfold read_canonical_hash. rewrite C. unfold blen in L. rewrite (proj2 (Nat.ltb_ge _ _)) by lia.
  rewrite firstn_all2 by lia. rewrite M. now rewrite file_array.
Qed.

(** The other direction: what is printed and written is right. *)
Lemma loop_sound d step : 0 < step -> (forall n, canonical_at d n -> n + step < 2 ^ 64) -> (forall n v, lookup (d kCanonicalHashes) (block_key n) = Some v -> blen v = 32) ->
  (forall k v, lookup (d kHeaders) k = Some v -> wf_bytes v) ->
  forall fuel i f g n, i * step < 2 ^ 64 -> extract_loop fuel d step (i * step) f = (g, Ended n) ->
  exists l texts, Forall2 base64_of texts l /\ (forall j rlp, nth_error l j = Some rlp -> header_at d ((i + N.of_nat j) * step) rlp)
    /\ n = (i + N.of_nat (length l)) * step /\ (~ canonical_at d n \/ n = 2 ^ 64 - 1) /\ g = fold_left add_header texts f.
Proof.
  intros S NW HL HW. induction fuel as [ | fuel I ]; intros i f g n B E; [ discriminate E | ]. cbn [extract_loop] in E.
  destruct (N.ltb_spec (i * step) (2 ^ 64 - 1)) as [L | L].
  2: { injection E as <- <-. exists [], []. split; [ constructor | ]. split; [ intros [ | j ] r J; discriminate J | ]. cbn [length fold_left]. change (N.of_nat 0) with 0. rewrite N.add_0_r.
       split; [ reflexivity | ]. split; [ right; lia | reflexivity ]. }
  destruct (lookup (d kCanonicalHashes) (block_key (i * step))) as [v | ] eqn:C.
  2: { unfold read_canonical_hash in E. rewrite C in E. injection E as <- <-. exists [], []. split; [ constructor | ]. split; [ intros [ | j ] r J; discriminate J | ]. cbn [length fold_left]. change (N.of_nat 0) with 0. rewrite N.add_0_r.
       split; [ reflexivity | ]. split; [ left; intros [w X]; congruence | reflexivity ]. }
  pose proof (HL _ _ C) as V. assert (R : read_canonical_hash d (i * step) = Done (Some v)).
  { unfold read_canonical_hash. rewrite C. unfold blen in V. rewrite (proj2 (Nat.ltb_ge _ _)) by lia. now rewrite firstn_all2 by lia. }
  rewrite R in E. destruct (lookup (d kHeaders) (block_key_hash (i * step) v)) as [rlp | ] eqn:K; [ | discriminate E ].
  destruct (base64encode rlp) as [t | | ] eqn:T; [ | discriminate E | discriminate E ].
  assert (NE : rlp <> []) by (intros ->; discriminate T). destruct (base64_text rlp (HW _ _ K) NE) as [t' [T' BT]]. rewrite T in T'. injection T' as <-.
  assert (X : i * step + step < 2 ^ 64) by (apply NW; exists v; exact C).
  assert (M : (i * step + step) mod 2 ^ 64 = (i + 1) * step) by (rewrite N.mod_small by exact X; lia). rewrite M in E.
  destruct (I (i + 1) _ _ _ ltac:(lia) E) as [l [ts [A [H [EN [NC G]]]]]]. exists (rlp :: l), (t :: ts). split; [ now constructor | ]. split.
  { intros [ | j ] r J; [ injection J as <- | ].
    - change (N.of_nat 0) with 0. rewrite N.add_0_r. exists v. auto.
    - replace (i + N.of_nat (Datatypes.S j)) with (i + 1 + N.of_nat j) by lia. now apply H. }
  split; [ cbn [length]; rewrite EN; f_equal; lia | ]. split; [ exact NC | exact G ].
Qed.
Lemma sound_lemma d head_header step fuel file n s : 0 < step -> (forall n, canonical_at d n -> n + step < 2 ^ 64) -> (forall n v, lookup (d kCanonicalHashes) (block_key n) = Some v -> blen v = 32) ->
  (forall k v, lookup (d kHeaders) k = Some v -> wf_bytes v) -> extract_headers fuel d head_header step = Some (file, Some n, s) ->
  exists l texts, Forall2 base64_of texts l /\ file = array_text texts /\ (forall j rlp, nth_error l j = Some rlp -> header_at d (N.of_nat j * step) rlp)
    /\ n = N.of_nat (length l) * step /\ (~ canonical_at d n \/ n = 2 ^ 64 - 1) /\ (s = 0 \/ s = 1).
Proof.
  intros S NW HL HW E. unfold extract_headers in E. destruct (extract_loop fuel d step 0 new_file) as [g e] eqn:L. destruct e as [m | | | ]; try discriminate E.
  destruct (final_status d head_header) as [s' | ] eqn:F; [ | discriminate E ]. injection E as <- <- <-.
  replace 0 with (0 * step) in L by lia. destruct (loop_sound d step S NW HL HW fuel 0 _ _ _ ltac:(lia) L) as [l [ts [A [H [EN [NC G]]]]]].
  exists l, ts. split; [ exact A | ]. split; [ rewrite G; apply file_array | ]. split; [ exact H | ]. split; [ exact EN | ]. split; [ exact NC | ].
  unfold final_status in F. destruct (read_head_header_hash head_header) as [[hash | ] | | ]; try discriminate F; [ | injection F; auto | injection F; auto ].
  destruct (read_header_of_hash d hash) as [[h | ] | | ]; try discriminate F; injection F; auto.
Qed.

(** The status once the file is written. *)
Lemma status_lemma d head_header hash n v : blen hash = 32 -> lookup head_header (str "LastHeader"%string) = Some hash -> lookup (d kHeaderNumbers) hash = Some v -> blen v = 8 -> be_to_N v = n ->
  (forall h, read_header d n hash = Done (Some h) -> final_status d head_header = Some 0) /\ (read_header d n hash = Done None -> final_status d head_header = Some 1).
Proof.
  intros L H K V E. assert (X : final_status d head_header = match read_header d n hash with Undefined => None | Throws => Some 1 | Done None => Some 1 | Done (Some _) => Some 0 end).
  { unfold final_status, read_head_header_hash. unfold head_header_key. rewrite H. unfold blen in L, V. rewrite (proj2 (Nat.ltb_ge _ _)) by lia. rewrite firstn_all2 by lia.
    unfold read_header_of_hash. rewrite K. unfold load_big_u64. rewrite (proj2 (Nat.ltb_ge _ _)) by lia. rewrite firstn_all2 by lia. cbn [obind]. now rewrite E. }
  rewrite X. split; [ intros h -> | intros -> ]; reflexivity.
Qed.
Lemma status_none d head_header : lookup head_header (str "LastHeader"%string) = None -> final_status d head_header = Some 1.
Proof. intros H. unfold final_status, read_head_header_hash, head_header_key. now rewrite H. Qed.

(** A case: blocks 0 and 2 of three, with a step of two. *)
Definition h0 : bytes := repeat 10 32.
Definition h1 : bytes := repeat 11 32.
Definition h2 : bytes := repeat 12 32.
Definition ext_db : database := fun t => match t with
  | kCanonicalHashes => [(block_key 0, h0); (block_key 1, h1); (block_key 2, h2)]
  | kHeaders => [(block_key_hash 0 h0, [77; 97; 110]); (block_key_hash 1 h1, [1]); (block_key_hash 2 h2, [77; 97])]
  | _ => []
  end.
Lemma ext_case : extract_headers 5 ext_db [] 2 = Some (array_text [str "TWFu"%string; str "TWE"%string], Some 4, 1)
  /\ headers_from ext_db 2 [[77; 97; 110]; [77; 97]] /\ ~ canonical_at ext_db 4.
Proof.
  split; [ vm_compute; reflexivity | ]. split.
  - intros [ | [ | j ] ] rlp J; [ injection J as <- | injection J as <- | destruct j; discriminate J ].
    + split; [ repeat constructor; lia | ]. split; [ discriminate | ]. exists h0. split; [ reflexivity | ]. split; vm_compute; reflexivity.
    + split; [ repeat constructor; lia | ]. split; [ discriminate | ]. exists h2. split; [ reflexivity | ]. split; vm_compute; reflexivity.
  - intros [v E]. vm_compute in E. discriminate E.
Qed.
(** And one with the head known. *)
Definition ext_db2 : database := fun t => match t with
  | kCanonicalHashes => [(block_key 0, h0)]
  | kHeaders => [(block_key_hash 0 h0, encode_hdr sample_header false)]
  | kHeaderNumbers => [(h0, block_key 0)]
  | _ => []
  end.
Definition ext_text : bytes := match base64encode (encode_hdr sample_header false) with Done t => t | _ => [] end.
Lemma ext_case2 : extract_headers 3 ext_db2 [(str "LastHeader"%string, h0)] 100000 = Some (array_text [ext_text], Some 100000, 0) /\ blen ext_text = 695.
Proof. split; vm_compute; reflexivity. Qed.
