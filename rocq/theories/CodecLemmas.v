(** Final forms of the codec lemmas used by Props_Codec. *)
From Verif Require Import Base BaseFacts RlpSpec RlpModel RlpProofs TxModel TxSpec TxProofs TxProofs2 TxProofs3 TxProofs4 BlockModel BlockSpec BlockProofs.

Lemma C01_fixed_rt s r : 1 < blen s -> blen s < 56 -> decode_fixed (blen s) (encode_fixed s ++ r) = Ok (s, r).
Proof. intros H1 H2. rewrite encode_fixed_spec by assumption. apply decode_fixed_rt. lia. Qed.
Lemma C01_u64_rt n r : u64 n -> decode_u64 (encode_u64 n ++ r) = Ok (n, r).
Proof. intros H. rewrite enc64 by assumption. now apply d64. Qed.
Lemma C01_u256_rt n r : u256 n -> decode_u256 (encode_u256 n ++ r) = Ok (n, r).
Proof. intros H. rewrite enc256 by assumption. now apply d256. Qed.

Lemma C01_vector_rt : forall (A : Type) (ok : A -> Prop) (len : A -> N) (enc : A -> bytes) (dec : bytes -> res (A * bytes)),
  (forall x r, ok x -> dec (enc x ++ r) = Ok (x, r)) ->
  (forall x, ok x -> len x = blen (enc x) /\ enc x <> []) ->
  forall xs r, Forall ok xs -> blen (concat (map enc xs)) < 2 ^ 64 ->
  decode_vector dec (encode_vector len enc xs ++ r) = Ok (xs, r).
Proof.
  intros A ok len enc dec Hrt Hl xs r Hxs B. unfold encode_vector.
  rewrite (sum_lengths_concat len enc) by (intros x Hx; rewrite Forall_forall in Hxs; now apply Hl, Hxs).
  rewrite encode_header_hdr by exact B.
  change (hdr_of _ ++ _) with (rlp_lst (concat (map enc xs))). apply (decode_vector_rt ok enc dec); auto.
  intros x Hx. now apply Hl.
Qed.

Lemma C02_bytes b s r : view b -> decode_bytes b = Ok (s, r) -> b = encode_bytes s ++ r.
Proof.
  intros V H. apply iB in H as (-> & W & _); [|exact V]. f_equal. symmetry. apply encB.
  destruct V as [_ V]. rewrite blen_app in V. apply small_str. lia.
Qed.
Lemma C02_u64 b n r : view b -> decode_u64 b = Ok (n, r) -> u64 n /\ b = encode_u64 n ++ r.
Proof. intros V H. apply i64 in H as (-> & U & _); [|exact V]. split; [exact U|]. now rewrite enc64. Qed.
Lemma C02_u256 b n r : view b -> decode_u256 b = Ok (n, r) -> u256 n /\ b = encode_u256 n ++ r.
Proof. intros V H. apply i256 in H as (-> & U & _); [|exact V]. split; [exact U|]. now rewrite enc256. Qed.
Lemma C02_fixed k b s r : view b -> 1 < k -> k < 56 -> decode_fixed k b = Ok (s, r) -> blen s = k /\ b = encode_fixed s ++ r.
Proof.
  intros V H1 H2 H. apply iF in H as (-> & F & _); [|exact V]. split; [apply F|]. now rewrite (encF k).
Qed.
Lemma C02_bool b (v : bool) r : view b -> decode_bool b = Ok (v, r) -> b = RLP (Num (if v then 1 else 0)) ++ r.
Proof. intros V H. now apply ibool in H. Qed.

Lemma C03_prims :
  (forall s, blen s < 2 ^ 64 -> length_bytes s = blen (encode_bytes s)) /\
  (forall n, u64 n -> length_u64 n = blen (encode_u64 n)) /\
  (forall n, u256 n -> length_u256 n = blen (encode_u256 n)) /\
  (forall b, blen b = 32 -> length_bytes32 = blen (encode_fixed b)).
Proof.
  repeat split; intros.
  - rewrite encB by assumption. now apply lenB.
  - rewrite enc64 by assumption. now apply len64.
  - rewrite enc256 by assumption. now apply len256.
  - unfold encode_fixed. rewrite blen_cons, H. reflexivity.
Qed.
Lemma C03_hdr h : wf_header h -> small_item (header_item h) -> length_hdr h = blen (encode_hdr h false).
Proof. intros W S. rewrite length_hdr_spec by assumption. f_equal. symmetry. now apply encode_hdr_spec. Qed.

Lemma C06_hdr h r : wf_header h -> small_item (header_item h) ->
  encode_hdr h false = RLP (header_item h) /\ decode_hdr (encode_hdr h false ++ r) = Ok (h, r).
Proof.
  intros W S. assert (E : encode_hdr h false = RLP (header_item h)) by now apply encode_hdr_spec.
  split; [exact E|]. rewrite E. now apply decode_hdr_rt.
Qed.
Lemma C07_hdr b h r : view b -> decode_hdr b = Ok (h, r) -> wf_header h /\ b = encode_hdr h false ++ r.
Proof. intros V H. apply decode_hdr_canon in H as (W & _ & E & _); auto. Qed.
Lemma C07_inj h1 h2 : wf_header h1 -> wf_header h2 ->
  small_item (header_item h1) -> small_item (header_item h2) -> encode_hdr h1 false = encode_hdr h2 false -> h1 = h2.
Proof. intros W1 W2 S1 S2 E. eapply (encode_hdr_inj h1 h2 [] []); auto. now rewrite E. Qed.

Lemma C08_prims b :
  (decode_header b <> UB /\ decode_header b <> NoFuel) /\
  (decode_bytes b <> UB /\ decode_bytes b <> NoFuel) /\
  (forall max, decode_uint max b <> UB /\ decode_uint max b <> NoFuel) /\
  (forall k, decode_fixed k b <> UB /\ decode_fixed k b <> NoFuel) /\
  (decode_bool b <> UB /\ decode_bool b <> NoFuel) /\
  (forall k, decode_vector (decode_fixed k) b <> UB /\ decode_vector (decode_fixed k) b <> NoFuel).
Proof.
  split; [apply decode_header_safe|]. split; [apply decode_bytes_safe|]. split; [intros; apply decode_uint_safe|].
  split; [intros; apply decode_fixed_safe|]. split; [apply decode_bool_safe|]. intros. apply decode_fixed_list_safe.
Qed.

Lemma C59_tx_inj t1 t2 : wf_tx t1 -> wf_tx t2 -> representable t1 -> representable t2 ->
  small_tx t1 -> small_tx t2 -> encode_tx t1 = encode_tx t2 -> no_sender t1 = no_sender t2.
Proof. intros W1 W2 R1 R2 S1 S2 E. eapply (encode_tx_inj t1 t2 [] []); auto. now rewrite E. Qed.

(** Concrete instances. *)
Lemma wf_bytesb_ok b : wf_bytesb b = true -> wf_bytes b.
Proof.
  unfold wf_bytesb. rewrite forallb_forall. intros H. apply Forall_forall. intros x Hx. unfold wf_byte.
  apply N.ltb_lt. now apply H.
Qed.
Ltac wfb := apply wf_bytesb_ok; reflexivity.

Definition sample_tx : transaction :=
  mkTx kEip1559 7 2 30 25000 (Some (repeat 0xAB 20)) (10 ^ 18) [1; 2; 0xff] true (Some 5) (2 ^ 255 + 1) 12345
       [mkEntry (repeat 0xCD 20) [repeat 1 32; repeat 2 32]] None.
Definition sample_legacy_tx : transaction :=
  mkTx kLegacy 0 9 9 21000 None 0 [0x60] false (Some 1) 1 1 [] None.
Definition sample_header : block_header :=
  mkHdr (repeat 1 32) (repeat 2 32) (repeat 3 20) (repeat 4 32) (repeat 5 32) (repeat 6 32) (repeat 0 256)
        (2 ^ 40) 12965000 15000000 21000 1628166822 [0x67; 0x65] (repeat 7 32) (repeat 8 8) (Some (10 ^ 9)).

Lemma sample_tx_ok : wf_tx sample_tx /\ representable sample_tx /\ small_tx sample_tx.
Proof.
  repeat split; try reflexivity; try wfb; try discriminate. repeat constructor; try reflexivity; try wfb.
Qed.
Lemma sample_legacy_ok : wf_tx sample_legacy_tx /\ representable sample_legacy_tx /\ small_tx sample_legacy_tx.
Proof. repeat split; try reflexivity; try wfb. constructor. Qed.
Lemma sample_header_ok : wf_header sample_header /\ small_item (header_item sample_header).
Proof. repeat split; try reflexivity; try wfb. Qed.

Lemma C04_witness_lemma : wf_tx sample_tx /\ representable sample_tx /\ small_tx sample_tx /\
   wf_tx sample_legacy_tx /\ representable sample_legacy_tx /\ small_tx sample_legacy_tx /\
   decode_tx (encode_tx sample_tx ++ [1; 2]) = Ok (sample_tx, [1; 2]).
Proof.
  pose proof sample_tx_ok as (W & R & S). pose proof sample_legacy_ok as (W' & R' & S').
  repeat (split; [assumption|]). now apply decode_tx_roundtrip.
Qed.
Lemma C06_witness_lemma : wf_header sample_header /\ small_item (header_item sample_header) /\
  wf_body (mkBody [sample_tx; sample_legacy_tx] [sample_header]) /\
  small_item (body_item (mkBody [sample_tx; sample_legacy_tx] [sample_header])).
Proof.
  pose proof sample_tx_ok as (W & R & S). pose proof sample_legacy_ok as (W' & R' & S'). pose proof sample_header_ok as [Wh Sh].
  split; [exact Wh|]. split; [exact Sh|]. split; [|reflexivity].
  split; repeat constructor; auto.
Qed.

(** Malleability witness: an EIP-2930 transaction whose inner list header claims an empty payload. *)
Definition mall_tx : transaction := mkTx kEip2930 1 2 2 3 None 4 [] false (Some 5) 6 7 [] None.
Definition mall_bytes : bytes := [0x8d; 1; 0xC0; 5; 1; 2; 3; 0x80; 4; 0x80; 0xC0; 0x80; 6; 7].
Lemma C05_refuted : exists b1 b2 t, view b1 /\ view b2 /\ b1 <> b2 /\
  decode_tx b1 = Ok (t, []) /\ decode_tx b2 = Ok (t, []) /\ b1 = encode_tx t.
Proof.
  exists (encode_tx mall_tx), mall_bytes, mall_tx.
  split; [split; [wfb|reflexivity]|]. split; [split; [wfb|reflexivity]|].
  split; [discriminate|]. repeat split; reflexivity.
Qed.
