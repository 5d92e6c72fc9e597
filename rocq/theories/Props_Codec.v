(** C01-C08, C59: the RLP, transaction, header and body codecs.
    Specification: RlpSpec (Yellow Paper RLP), TxSpec (EIP-155/2718/2930/1559), BlockSpec.
    Model: RlpModel, TxModel, BlockModel. *)
From Verif Require Import Base BaseFacts RlpSpec RlpModel RlpProofs TxModel TxSpec TxProofs4 BlockModel BlockSpec BlockProofs CodecLemmas CodecCases.

(** *** C01: decoding inverts encoding and leaves exactly the following bytes. *)
Theorem C01_bytes_round_trip : forall s r, blen s < 2 ^ 64 -> decode_bytes (encode_bytes s ++ r) = Ok (s, r).
Proof. exact (fun s r H => eq_trans (f_equal (fun e => decode_bytes (e ++ r)) (encode_bytes_spec s H)) (decode_bytes_rt s r H)). Qed.
Print Assumptions C01_bytes_round_trip.

Theorem C01_fixed_round_trip : forall s r, 1 < blen s -> blen s < 56 -> decode_fixed (blen s) (encode_fixed s ++ r) = Ok (s, r).
Proof. exact C01_fixed_rt. Qed.
Print Assumptions C01_fixed_round_trip.

Theorem C01_uint64_round_trip : forall n r, u64 n -> decode_u64 (encode_u64 n ++ r) = Ok (n, r).
Proof. exact C01_u64_rt. Qed.
Print Assumptions C01_uint64_round_trip.

Theorem C01_uint256_round_trip : forall n r, u256 n -> decode_u256 (encode_u256 n ++ r) = Ok (n, r).
Proof. exact C01_u256_rt. Qed.
Print Assumptions C01_uint256_round_trip.

(** Lists of any item type whose own codec round-trips: the vector codec adds no ambiguity. *)
Theorem C01_vector_round_trip : forall (A : Type) (ok : A -> Prop) (len : A -> N) (enc : A -> bytes) (dec : bytes -> res (A * bytes)),
  (forall x r, ok x -> dec (enc x ++ r) = Ok (x, r)) ->
  (forall x, ok x -> len x = blen (enc x) /\ enc x <> []) ->
  forall xs r, Forall ok xs -> blen (concat (map enc xs)) < 2 ^ 64 ->
  decode_vector dec (encode_vector len enc xs ++ r) = Ok (xs, r).
Proof. exact C01_vector_rt. Qed.
Print Assumptions C01_vector_round_trip.

(** The encoders produce the Yellow Paper encoding. *)
Theorem C01_encoders_follow_spec :
  (forall s, blen s < 2 ^ 64 -> encode_bytes s = RLP (Str s)) /\
  (forall n, u64 n -> encode_u64 n = RLP (Num n)) /\
  (forall n, u256 n -> encode_u256 n = RLP (Num n)) /\
  (forall s, 1 < blen s -> blen s < 56 -> encode_fixed s = RLP (Str s)).
Proof. exact (conj encode_bytes_spec (conj encode_u64_spec (conj encode_u256_spec encode_fixed_spec))). Qed.
Print Assumptions C01_encoders_follow_spec.

Example C01_witness : decode_u256 (encode_u256 (2 ^ 200 + 7) ++ [1; 2; 3]) = Ok (2 ^ 200 + 7, [1; 2; 3])
  /\ decode_bytes (encode_bytes (repeat 200 60) ++ [9]) = Ok (repeat 200 60, [9]).
Proof. split; reflexivity. Qed.

(** *** C02: only canonical encodings are accepted. *)
Theorem C02_bytes_canonical : forall b s r, view b -> decode_bytes b = Ok (s, r) -> b = encode_bytes s ++ r.
Proof. exact C02_bytes. Qed.
Print Assumptions C02_bytes_canonical.

Theorem C02_uint64_canonical : forall b n r, view b -> decode_u64 b = Ok (n, r) -> u64 n /\ b = encode_u64 n ++ r.
Proof. exact C02_u64. Qed.
Print Assumptions C02_uint64_canonical.

Theorem C02_uint256_canonical : forall b n r, view b -> decode_u256 b = Ok (n, r) -> u256 n /\ b = encode_u256 n ++ r.
Proof. exact C02_u256. Qed.
Print Assumptions C02_uint256_canonical.

Theorem C02_fixed_canonical : forall k b s r, view b -> 1 < k -> k < 56 -> decode_fixed k b = Ok (s, r) -> blen s = k /\ b = encode_fixed s ++ r.
Proof. exact C02_fixed. Qed.
Print Assumptions C02_fixed_canonical.

Theorem C02_bool_canonical : forall b (v : bool) r, view b -> decode_bool b = Ok (v, r) -> b = RLP (Num (if v then 1 else 0)) ++ r.
Proof. exact C02_bool. Qed.
Print Assumptions C02_bool_canonical.

(** The specification itself is unambiguous: no encoding is a prefix of another. *)
Theorem C02_spec_prefix_free : forall x y r r', item_ok x -> item_ok y -> RLP x ++ r = RLP y ++ r' -> x = y /\ r = r'.
Proof. exact RLP_prefix_free. Qed.
Print Assumptions C02_spec_prefix_free.

Example C02_witness : decode_u64 [0x82; 0x01; 0x00; 0xff] = Ok (256, [0xff])
  /\ decode_u64 [0x81; 0x01] = Err kNonCanonicalSingleByte /\ decode_u64 [0x82; 0x00; 0x01] = Err kLeadingZero
  /\ decode_bytes [0xB8; 0x01; 0xff] = Err kNonCanonicalSize.
Proof. repeat split; reflexivity. Qed.

(** *** C03: length functions are exact. *)
Theorem C03_primitive_lengths :
  (forall s, blen s < 2 ^ 64 -> length_bytes s = blen (encode_bytes s)) /\
  (forall n, u64 n -> length_u64 n = blen (encode_u64 n)) /\
  (forall n, u256 n -> length_u256 n = blen (encode_u256 n)) /\
  (forall b, blen b = 32 -> length_bytes32 = blen (encode_fixed b)).
Proof. exact C03_prims. Qed.
Print Assumptions C03_primitive_lengths.

Theorem C03_vector_length : forall (A : Type) (len : A -> N) (enc : A -> bytes) v,
  (forall x, In x v -> len x = blen (enc x)) -> blen (concat (map enc v)) < 2 ^ 64 ->
  length_vector len v = blen (encode_vector len enc v).
Proof. exact (@length_vector_spec). Qed.
Print Assumptions C03_vector_length.

Theorem C03_transaction_length : forall t, wf_tx t -> small_tx t -> (is_legacy (tx_typ t) = true -> spec_v t < 2 ^ 256) ->
  length_tx t = blen (encode_tx t).
Proof. exact length_tx_exact. Qed.
Print Assumptions C03_transaction_length.

Theorem C03_header_length : forall h, wf_header h -> small_item (header_item h) -> length_hdr h = blen (encode_hdr h false).
Proof. exact C03_hdr. Qed.
Print Assumptions C03_header_length.
Example C03_witness : length_tx sample_tx = 176 /\ (is_legacy (tx_typ sample_legacy_tx) = true /\ spec_v sample_legacy_tx < 2 ^ 256 /\ length_tx sample_legacy_tx = blen (encode_tx sample_legacy_tx))
  /\ length_hdr sample_header = blen (encode_hdr sample_header false) /\ length_vector length_u64 [1; 200; 70000] = blen (encode_vector length_u64 encode_u64 [1; 200; 70000]).
Proof. exact C03_case_lemma. Qed.

(** *** C04: transactions *)
Theorem C04_transaction_round_trip : forall t r, wf_tx t -> representable t -> small_tx t ->
  decode_tx (encode_tx t ++ r) = Ok (no_sender t, r).
Proof. exact decode_tx_roundtrip. Qed.
Print Assumptions C04_transaction_round_trip.

(** The encoder produces the block-body form of EIP-2718/2930/1559 and EIP-155. *)
Theorem C04_encoding_is_spec : forall t, wf_tx t -> (is_legacy (tx_typ t) = true -> spec_v t < 2 ^ 256) -> small_tx t ->
  encode_tx t = wire_tx t.
Proof. exact encode_tx_is_wire. Qed.
Print Assumptions C04_encoding_is_spec.

(** [sample_tx], [sample_legacy_tx], [sample_header]: concrete values in CodecLemmas. *)
Example C04_witness : wf_tx sample_tx /\ representable sample_tx /\ small_tx sample_tx /\
                      wf_tx sample_legacy_tx /\ representable sample_legacy_tx /\ small_tx sample_legacy_tx /\
                      decode_tx (encode_tx sample_tx ++ [1; 2]) = Ok (sample_tx, [1; 2]).
Proof. exact C04_witness_lemma. Qed.

(** *** C05: canonicity of accepted transactions *)
Theorem C05_legacy_canonical_partial : forall b t r, view b -> decode_tx b = Ok (t, r) -> tx_typ t = kLegacy -> b = encode_tx t ++ r.
Proof. exact decode_tx_canon_legacy. Qed.
Print Assumptions C05_legacy_canonical_partial.

(** Typed transactions: only the length in the inner list header can deviate (it is never compared with the
    number of bytes the fields occupy). Missing for the full property: [n] must be that length. *)
Theorem C05_typed_canonical_partial : forall b t r, view b -> decode_tx b = Ok (t, r) -> tx_typ t <> kLegacy ->
  exists n, n <= blen (concat (map RLP (unsigned_fields t ++ signature_fields t))) /\
   b = RLP (Str (type_byte (tx_typ t) :: hdr 0xC0 0xF7 n ++ concat (map RLP (unsigned_fields t ++ signature_fields t)))) ++ r /\
   (n = blen (concat (map RLP (unsigned_fields t ++ signature_fields t))) -> b = encode_tx t ++ r).
Proof. exact decode_tx_canon_typed. Qed.
Print Assumptions C05_typed_canonical_partial.
Example C05_witness : (view (encode_tx sample_legacy_tx ++ [7]) /\ decode_tx (encode_tx sample_legacy_tx ++ [7]) = Ok (sample_legacy_tx, [7]) /\ tx_typ sample_legacy_tx = kLegacy)
  /\ (view mall_bytes /\ decode_tx mall_bytes = Ok (mall_tx, []) /\ tx_typ mall_tx <> kLegacy).
Proof. exact C05_case_lemma. Qed.

(** The full property fails: two different byte strings decode to the same typed transaction. *)
Theorem C05_transaction_canonical_refuted : exists b1 b2 t, view b1 /\ view b2 /\ b1 <> b2 /\
  decode_tx b1 = Ok (t, []) /\ decode_tx b2 = Ok (t, []) /\ b1 = encode_tx t.
Proof. exact C05_refuted. Qed.
Print Assumptions C05_transaction_canonical_refuted.

(** *** C06: header, body and block round trips *)
Theorem C06_header_round_trip : forall h r, wf_header h -> small_item (header_item h) ->
  encode_hdr h false = RLP (header_item h) /\ decode_hdr (encode_hdr h false ++ r) = Ok (h, r).
Proof. exact C06_hdr. Qed.
Print Assumptions C06_header_round_trip.

Theorem C06_body_round_trip : forall b r, wf_body b -> small_item (body_item b) ->
  encode_body b = RLP (body_item b) /\
  decode_body (encode_body b ++ r) = Ok (mkBody (map no_sender (bd_transactions b)) (bd_ommers b), r).
Proof. exact (fun b r W S => conj (encode_body_spec b W S) (decode_body_rt b r W S)). Qed.
Print Assumptions C06_body_round_trip.

(** There is no block encoder in the code; decoding inverts the specified encoding. *)
Theorem C06_block_decoding : forall b r, wf_block b -> small_item (block_item b) ->
  decode_block (RLP (block_item b) ++ r) = Ok (mkBlock (bk_header b) (map no_sender (bk_transactions b)) (bk_ommers b), r).
Proof. exact decode_block_rt. Qed.
Print Assumptions C06_block_decoding.
Example C06_block_witness : wf_block sample_block /\ small_item (block_item sample_block) /\ bk_transactions sample_block = [sample_tx; sample_legacy_tx].
Proof. exact (conj (proj1 sample_block_ok) (conj (proj2 sample_block_ok) eq_refl)). Qed.

Example C06_witness : wf_header sample_header /\ small_item (header_item sample_header) /\
  wf_body (mkBody [sample_tx; sample_legacy_tx] [sample_header]) /\
  small_item (body_item (mkBody [sample_tx; sample_legacy_tx] [sample_header])).
Proof. exact C06_witness_lemma. Qed.

(** *** C07: header canonicity *)
Theorem C07_header_canonical : forall b h r, view b -> decode_hdr b = Ok (h, r) -> wf_header h /\ b = encode_hdr h false ++ r.
Proof. exact C07_hdr. Qed.
Print Assumptions C07_header_canonical.

(** Equal sealed preimages, equal headers: the block hash commits to every header field. *)
Theorem C07_header_preimage_injective : forall h1 h2, wf_header h1 -> wf_header h2 ->
  small_item (header_item h1) -> small_item (header_item h2) -> encode_hdr h1 false = encode_hdr h2 false -> h1 = h2.
Proof. exact C07_inj. Qed.
Print Assumptions C07_header_preimage_injective.

(** The seal preimage omits exactly mix hash and nonce. *)
Theorem C07_seal_preimage : forall h, wf_header h -> small_item (unsealed_item h) -> encode_hdr h true = RLP (unsealed_item h).
Proof. exact (fun h W S => encode_hdr_spec h true W S). Qed.
Print Assumptions C07_seal_preimage.
Example C07_witness : view (encode_hdr sample_header false ++ [1]) /\ decode_hdr (encode_hdr sample_header false ++ [1]) = Ok (sample_header, [1])
  /\ small_item (unsealed_item sample_header) /\ blen (encode_hdr sample_header true) < blen (encode_hdr sample_header false).
Proof. exact C07_case_lemma. Qed.

(** *** C08: memory safety of decoding. UB = a read outside the view; NoFuel = loop bound of the model. *)
Theorem C08_primitive_decoders_safe : forall b,
  (decode_header b <> UB /\ decode_header b <> NoFuel) /\
  (decode_bytes b <> UB /\ decode_bytes b <> NoFuel) /\
  (forall max, decode_uint max b <> UB /\ decode_uint max b <> NoFuel) /\
  (forall k, decode_fixed k b <> UB /\ decode_fixed k b <> NoFuel) /\
  (decode_bool b <> UB /\ decode_bool b <> NoFuel) /\
  (forall k, decode_vector (decode_fixed k) b <> UB /\ decode_vector (decode_fixed k) b <> NoFuel).
Proof. exact C08_prims. Qed.
Print Assumptions C08_primitive_decoders_safe.

Theorem C08_header_decoder_safe : forall b, decode_hdr b <> UB /\ decode_hdr b <> NoFuel.
Proof. exact decode_hdr_safe. Qed.
Print Assumptions C08_header_decoder_safe.

(** Transactions: the only inputs that make the decoder read past the view are those that end right before the
    recipient field ([from[0]] is not guarded). Missing for the full property: no such input. *)
Theorem C08_transaction_decoder_safe_partial : forall b, view b ->
  decode_tx b <> NoFuel /\ (decode_tx b = UB -> truncated_at_to b).
Proof. exact decode_tx_guarded. Qed.
Print Assumptions C08_transaction_decoder_safe_partial.

Theorem C08_body_decoder_safe_partial : forall b, view b ->
  decode_body b <> NoFuel /\ (decode_body b = UB -> exists q, sub_view q b /\ truncated_at_to q).
Proof. exact decode_body_guarded. Qed.
Print Assumptions C08_body_decoder_safe_partial.

Theorem C08_block_decoder_safe_partial : forall b, view b ->
  decode_block b <> NoFuel /\ (decode_block b = UB -> exists q, sub_view q b /\ truncated_at_to q).
Proof. exact decode_block_guarded. Qed.
Print Assumptions C08_block_decoder_safe_partial.
Example C08_witness : view (encode_body sample_body) /\ decode_body (encode_body sample_body) = Ok (sample_body, [])
  /\ view (RLP (block_item sample_block)) /\ decode_block (RLP (block_item sample_block)) = Ok (sample_block, [])
  /\ view [0xC3; 0x80; 0x80; 0x80] /\ truncated_at_to [0xC3; 0x80; 0x80; 0x80].
Proof. exact C08_case_lemma. Qed.

Theorem C08_transaction_decoder_refuted : decode_tx [0xC3; 0x80; 0x80; 0x80] = UB.
Proof. reflexivity. Qed.
Print Assumptions C08_transaction_decoder_refuted.

(** *** C59 (transactions, headers): encodings commit to the fields. *)
Theorem C59_transaction_injective : forall t1 t2, wf_tx t1 -> wf_tx t2 -> representable t1 -> representable t2 ->
  small_tx t1 -> small_tx t2 -> encode_tx t1 = encode_tx t2 -> no_sender t1 = no_sender t2.
Proof. exact C59_tx_inj. Qed.
Print Assumptions C59_transaction_injective.

Theorem C59_signing_preimage : forall t, wf_tx t -> small_signing t -> encode_tx_gen t true false = envelope t (spec_signing_item t).
Proof. exact signing_encoding. Qed.
Print Assumptions C59_signing_preimage.

Theorem C59_signing_injective : forall t1 t2, wf_tx t1 -> wf_tx t2 -> small_signing t1 -> small_signing t2 ->
  encode_tx_gen t1 true false = encode_tx_gen t2 true false ->
  tx_typ t1 = tx_typ t2 /\ tx_nonce t1 = tx_nonce t2 /\ tx_max_fee t1 = tx_max_fee t2 /\
  tx_gas_limit t1 = tx_gas_limit t2 /\ tx_to t1 = tx_to t2 /\ tx_value t1 = tx_value t2 /\ tx_data t1 = tx_data t2 /\
  (tx_typ t1 = kLegacy -> tx_chain_id t1 = tx_chain_id t2) /\
  (tx_typ t1 <> kLegacy -> spec_chain_id t1 = spec_chain_id t2 /\ tx_access_list t1 = tx_access_list t2) /\
  (tx_typ t1 = kEip1559 -> tx_max_priority_fee t1 = tx_max_priority_fee t2).
Proof. exact signing_inj. Qed.
Print Assumptions C59_signing_injective.
Example C59_witness : small_signing sample_tx /\ small_signing sample_legacy_tx /\ encode_tx_gen sample_tx true false <> encode_tx_gen sample_legacy_tx true false.
Proof. exact C59_case_lemma. Qed.
