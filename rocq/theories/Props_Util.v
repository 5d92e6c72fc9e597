(** Utilities: C12, C13, C60, C62; body and block frames: C61. *)
From Verif Require Import Base BaseFacts RlpSpec RlpModel TxModel TxSpec BlockModel BlockSpec BlockProofs BlockProofs2 UtilModel UtilSpec UtilProofs CodecCases.

(** *** C12: hex *)
Theorem C12_from_to_hex : forall b, wf_bytes b -> from_hex (to_hex b) = Some b.
Proof. exact from_to_hex. Qed.
Print Assumptions C12_from_to_hex.

Theorem C12_from_prefixed_hex : forall b x, wf_bytes b -> x = 120 \/ x = 88 -> from_hex (48 :: x :: to_hex b) = Some b.
Proof. exact from_0x_to_hex. Qed.
Print Assumptions C12_from_prefixed_hex.

(** Exactly the strings that denote bytes are accepted, with the denoted value; all others are rejected. *)
Theorem C12_from_hex_exact : forall s b, from_hex s = Some b <-> hex_denotes s b.
Proof. exact from_hex_spec. Qed.
Print Assumptions C12_from_hex_exact.

Theorem C12_to_hex_size : forall b, blen (to_hex b) = 2 * blen b.
Proof. exact to_hex_length. Qed.
Print Assumptions C12_to_hex_size.

Example C12_witness : to_hex [1; 171] = [48; 49; 97; 98] /\ from_hex [48; 88; 65; 98] = Some [171] /\ from_hex [49] = None.
Proof. repeat split; reflexivity. Qed.

(** *** C13: padding (also when the view is part of the buffer) *)
Theorem C13_left_pad : forall s n buffer, source_ok buffer s ->
  match s with Outside _ => True | Inside _ _ => (n <= length buffer)%nat \/ (n <= length (view_of buffer s))%nat end ->
  exists buffer', left_pad s n buffer = Some (zeros (n - length (view_of buffer s)) ++ view_of buffer s, buffer').
Proof. exact left_pad_spec. Qed.
Print Assumptions C13_left_pad.

Theorem C13_right_pad : forall s n buffer, source_ok buffer s ->
  exists buffer', right_pad s n buffer = Some (view_of buffer s ++ zeros (n - length (view_of buffer s)), buffer').
Proof. exact right_pad_spec. Qed.
Print Assumptions C13_right_pad.

Theorem C13_to_bytes_short : forall n b, (length b <= n)%nat -> to_fixed n b = zeros (n - length b) ++ b.
Proof. exact to_fixed_short. Qed.
Print Assumptions C13_to_bytes_short.

Theorem C13_to_bytes_long : forall n b, (n <= length b)%nat -> to_fixed n b = firstn n b.
Proof. exact to_fixed_long. Qed.
Print Assumptions C13_to_bytes_long.

Theorem C13_zeroless_view : forall h, exists k, h = zeros k ++ zeroless_view h /\ (forall t, zeroless_view h <> 0 :: t).
Proof. exact zeroless_split. Qed.
Print Assumptions C13_zeroless_view.

Theorem C13_zeroless_value : forall h, be_to_N (zeroless_view h) = be_to_N h.
Proof. exact zeroless_value. Qed.
Print Assumptions C13_zeroless_value.

Theorem C13_prefix_length : forall a b,
  firstn (prefix_length a b) a = firstn (prefix_length a b) b /\
  (prefix_length a b <= length a)%nat /\ (prefix_length a b <= length b)%nat /\
  (forall k, (k <= length a)%nat -> (k <= length b)%nat -> firstn k a = firstn k b -> (k <= prefix_length a b)%nat).
Proof. exact prefix_length_spec. Qed.
Print Assumptions C13_prefix_length.

Example C13_witness : left_pad (Inside 1 2) 4 [9; 5; 6; 7; 8; 8] = Some ([0; 0; 5; 6], [0; 0; 5; 6]) /\
  right_pad (Inside 1 2) 7 [9; 5; 6; 7] = Some ([5; 6; 0; 0; 0; 0; 0], [5; 6; 0; 0; 0; 0; 0]).
Proof. split; reflexivity. Qed.

(** *** C60: sizes *)
Theorem C60_parse_size_partial : forall s n d e k, size_string s n d e k -> n * k + k * d / 10 ^ N.of_nat e < 2 ^ 64 ->
  parse_size s = Some (n * k + k * d / 10 ^ N.of_nat e).
Proof. exact parse_size_exact. Qed.
Print Assumptions C60_parse_size_partial.

Theorem C60_rejects_exactly_ill_formed : forall s, parse_size s = None <-> s <> [] /\ ~ exists n d e k, size_string s n d e k.
Proof. exact parse_size_none. Qed.
Print Assumptions C60_rejects_exactly_ill_formed.

(** A size of 2^64 bytes or more is neither rejected nor saturated: "16777216TB" yields 0. *)
Theorem C60_parse_size_overflow_refuted : parse_size [49; 54; 55; 55; 55; 50; 49; 54; 84; 66] = Some 0.
Proof. reflexivity. Qed.
Print Assumptions C60_parse_size_overflow_refuted.

Example C60_witness : parse_size [49; 46; 53; 32; 107; 66] = Some 1536 /\ parse_size [49; 46; 75] = None.
Proof. split; reflexivity. Qed.

(** *** C61: accepted bodies and blocks are exactly framed; only the inner length of a typed transaction is free *)
Theorem C61_body_exact : forall b bd r, view b -> decode_body b = Ok (bd, r) ->
  Forall wf_header (bd_ommers bd) /\
  exists es, Forall2 tx_form (bd_transactions bd) es /\
    b = rlp_lst (rlp_lst (concat es) ++ RLP (Lst (map header_item (bd_ommers bd)))) ++ r.
Proof. exact decode_body_inv. Qed.
Print Assumptions C61_body_exact.

Theorem C61_block_exact : forall b bk r, view b -> decode_block b = Ok (bk, r) ->
  wf_header (bk_header bk) /\ Forall wf_header (bk_ommers bk) /\
  exists es, Forall2 tx_form (bk_transactions bk) es /\
    b = rlp_lst (RLP (header_item (bk_header bk)) ++ rlp_lst (concat es) ++ RLP (Lst (map header_item (bk_ommers bk)))) ++ r.
Proof. exact decode_block_inv. Qed.
Print Assumptions C61_block_exact.
Example C61_witness : view (encode_body sample_body) /\ decode_body (encode_body sample_body) = Ok (sample_body, [])
  /\ view (RLP (block_item sample_block)) /\ decode_block (RLP (block_item sample_block)) = Ok (sample_block, []).
Proof. exact (conj (proj1 C08_case_lemma) (conj (proj1 (proj2 C08_case_lemma)) (conj (proj1 (proj2 (proj2 C08_case_lemma))) (proj1 (proj2 (proj2 (proj2 C08_case_lemma))))))). Qed.

(** *** C62: split *)
Theorem C62_split : forall s d, d <> [] -> (length d < length s)%nat ->
  exists l, split s d = Some l /\ (s = join d l \/ s = join d l ++ d) /\ Forall (fun p => ~ contains d p) l.
Proof. exact split_spec. Qed.
Print Assumptions C62_split.

(** Without a delimiter, or with one that is not shorter than the text, the text is returned whole (also when it equals the delimiter). *)
Theorem C62_split_whole : forall s d, d = [] \/ (length s <= length d)%nat -> split s d = Some [s].
Proof. exact split_whole. Qed.
Print Assumptions C62_split_whole.

Example C62_witness : split [1; 0; 2; 3; 0] [0] = Some [[1]; [2; 3]] /\ split [0; 1] [0] = Some [[]; [1]].
Proof. split; reflexivity. Qed.
