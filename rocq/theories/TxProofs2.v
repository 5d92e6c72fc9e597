(** Proofs about the transaction codec: whole transactions. *)
From Verif Require Import Base BaseFacts RlpSpec RlpModel RlpProofs EcdsaModel TxModel TxSpec TxProofs.

Lemma u64_u256 n : u64 n -> u256 n.
Proof. unfold u64, u256. intros H. eapply N.lt_trans; [exact H|reflexivity]. Qed.

Lemma enc64 n : u64 n -> encode_u64 n = RLP (Num n).
Proof. exact (encode_u64_spec n). Qed.
Lemma enc256 n : u256 n -> encode_u256 n = RLP (Num n).
Proof. exact (encode_u256_spec n). Qed.
Lemma len64 n : u64 n -> length_u64 n = blen (RLP (Num n)).
Proof. exact (length_u64_spec n). Qed.
Lemma len256 n : u256 n -> length_u256 n = blen (RLP (Num n)).
Proof. exact (length_u256_spec n). Qed.
Lemma encB s : blen s < 2 ^ 64 -> encode_bytes s = RLP (Str s).
Proof. exact (encode_bytes_spec s). Qed.
Lemma lenB s : blen s < 2 ^ 64 -> length_bytes s = blen (RLP (Str s)).
Proof. exact (length_bytes_spec s). Qed.

Definition wf_to (to : option bytes) : Prop :=
  match to with Some a => blen a = 20 /\ wf_bytes a | None => True end.

Lemma encTo to : wf_to to -> encode_to to = RLP (to_item to).
Proof.
  destruct to as [a|]; cbn; intros H; [|reflexivity]. destruct H. rewrite encode_fixed_spec by lia. reflexivity.
Qed.

Lemma lenTo to : wf_to to -> (match to with Some _ => 20 + 1 | None => 1 end) = blen (RLP (to_item to)).
Proof.
  intros H. rewrite <- encTo by exact H. destruct to as [a|]; [|reflexivity]. cbn. destruct H as [H _].
  unfold encode_fixed. rewrite blen_cons, H. reflexivity.
Qed.

Lemma small_lst l : blen (RLP (Lst l)) < 2 ^ 64 -> blen (concat (map RLP l)) < 2 ^ 64.
Proof. cbn [RLP]. intros. pose proof (rlp_lst_blen_gt (concat (map RLP l))). lia. Qed.

Lemma small_in x l : blen (concat (map RLP l)) < 2 ^ 64 -> In x l -> blen (RLP x) < 2 ^ 64.
Proof. intros H Hx. pose proof (blen_in_concat x l Hx). lia. Qed.

Lemma small_str s : blen (RLP (Str s)) < 2 ^ 64 -> blen s < 2 ^ 64.
Proof. cbn [RLP]. pose proof (rlp_str_blen_ge s). lia. Qed.

Lemma access_list_spec al : Forall wf_entry al -> blen (RLP (Lst (map access_item al))) < 2 ^ 64 ->
  encode_vector length_entry encode_entry al = RLP (Lst (map access_item al)) /\
  length_vector length_entry al = blen (RLP (Lst (map access_item al))) /\
  Forall ok_entry al /\ map encode_entry al = map RLP (map access_item al).
Proof.
  intros W B. apply small_lst in B.
  assert (Hok : Forall ok_entry al).
  { rewrite Forall_forall in *. intros e He. split; [now apply W|].
    eapply small_in; [exact B|]. now apply in_map. }
  assert (Hm : map encode_entry al = map RLP (map access_item al)).
  { rewrite map_map. apply map_ext_in. intros e He. rewrite Forall_forall in Hok. destruct (Hok e He).
    now apply encode_entry_spec. }
  rewrite Forall_forall in Hok.
  assert (L : forall e, In e al -> length_entry e = blen (encode_entry e)).
  { intros e He. destruct (Hok e He). rewrite encode_entry_spec by assumption. now apply length_entry_spec. }
  assert (E : encode_vector length_entry encode_entry al = RLP (Lst (map access_item al))).
  { apply encode_vector_spec; auto.
    - intros e He. destruct (Hok e He). now apply encode_entry_spec.
    - now rewrite Hm. }
  repeat split; auto.
  - rewrite <- E. apply length_vector_spec; auto. now rewrite Hm.
  - now rewrite Forall_forall.
Qed.

(** The fields of the RLP payload; [tx_v] is the (possibly wrapped) value the code computes. *)
Definition cpp_signature_fields (t : transaction) : list item :=
  match tx_typ t with
  | kLegacy => [Num (tx_v t); Num (tx_r t); Num (tx_s t)]
  | _ => [Num (if tx_odd_y_parity t then 1 else 0); Num (tx_r t); Num (tx_s t)]
  end.
Definition tx_fields (t : transaction) (for_signing : bool) : list item :=
  if for_signing then signing_fields t else unsigned_fields t ++ cpp_signature_fields t.

Lemma tx_v_u256 t : u256 (tx_v t).
Proof.
  unfold tx_v, y_parity_and_chain_id_to_v, u256. destruct (tx_chain_id t) as [c|].
  - apply N.mod_lt. discriminate.
  - destruct (tx_odd_y_parity t); reflexivity.
Qed.

Lemma tx_v_spec t : spec_v t < 2 ^ 256 -> tx_v t = spec_v t.
Proof.
  unfold tx_v, spec_v, y_parity_and_chain_id_to_v. destruct (tx_chain_id t) as [c|], (tx_odd_y_parity t); intros H;
    try reflexivity; now rewrite N.mod_small.
Qed.

Definition v_fits (t : transaction) : Prop := is_legacy (tx_typ t) = true -> spec_v t < 2 ^ 256.

Lemma tx_fields_spec t : v_fits t -> tx_fields t false = unsigned_fields t ++ signature_fields t.
Proof.
  intros H. unfold tx_fields, cpp_signature_fields, signature_fields, v_fits in *.
  destruct (tx_typ t); try reflexivity. now rewrite tx_v_spec by (now apply H).
Qed.

Lemma parity_bool t : bool_u64 (tx_odd_y_parity t) = if tx_odd_y_parity t then 1 else 0.
Proof. reflexivity. Qed.

Lemma u64_bool b : u64 (bool_u64 b).
Proof. destruct b; reflexivity. Qed.

Section Layout.
  Variable t : transaction.
  Variable for_signing : bool.
  Hypothesis W : wf_tx t.
  Hypothesis B : blen (RLP (Lst (tx_fields t for_signing))) < 2 ^ 64.

  Lemma layout_data : blen (tx_data t) < 2 ^ 64.
  Proof.
    apply small_lst in B. apply small_str. eapply small_in; [exact B|].
    unfold tx_fields, signing_fields, unsigned_fields.
    destruct for_signing, (tx_typ t), (tx_chain_id t); cbn [app In]; tauto.
  Qed.

  Lemma layout_al : is_legacy (tx_typ t) = false -> blen (RLP (Lst (map access_item (tx_access_list t)))) < 2 ^ 64.
  Proof.
    intros L. apply small_lst in B. eapply small_in; [exact B|].
    unfold tx_fields, signing_fields, unsigned_fields.
    destruct for_signing, (tx_typ t), (tx_chain_id t); try discriminate; cbn [app In]; tauto.
  Qed.

  Lemma chain_u256 : u256 (value_or0 (tx_chain_id t)).
  Proof.
    destruct W as (_ & _ & _ & _ & _ & _ & _ & C & _). destruct (tx_chain_id t); [exact C|reflexivity].
  Qed.

  Lemma layout_header : h_payload_length (tx_rlp_header t for_signing) = blen (concat (map RLP (tx_fields t for_signing))).
  Proof.
    pose proof layout_data as D. pose proof layout_al as A. pose proof chain_u256 as C.
    destruct W as (Wn & Wp & Wf & Wg & Wto & Wval & Wd & Wc & Wr & Ws & Wal).
    unfold tx_rlp_header. cbn [h_payload_length].
    rewrite (len256 _ C), (len64 _ Wn), (len256 _ Wp), (len256 _ Wf), (len64 _ Wg), (lenTo _ Wto), (len256 _ Wval),
      (lenB _ D), (len64 _ (u64_bool _)), (len256 _ Wr), (len256 _ Ws).
    assert (HA : (if is_legacy (tx_typ t) then 0 else length_vector length_entry (tx_access_list t)) =
                 if is_legacy (tx_typ t) then 0 else blen (RLP (Lst (map access_item (tx_access_list t))))).
    { destruct (is_legacy (tx_typ t)) eqn:EL; [reflexivity|]. now destruct (access_list_spec _ Wal (A eq_refl)) as (_ & -> & _). }
    rewrite HA. clear HA A.
    rewrite (len256 _ (tx_v_u256 t)).
    assert (HV : match tx_chain_id t with Some c => length_u256 c + 2 | None => 0 end =
                 match tx_chain_id t with Some c => blen (RLP (Num c)) + 2 | None => 0 end).
    { destruct (tx_chain_id t); [|reflexivity]. now rewrite (len256 _ Wc). }
    rewrite HV. clear HV B.
    unfold tx_fields, signing_fields, unsigned_fields, cpp_signature_fields, spec_chain_id, value_or0 in *.
    destruct for_signing, (tx_typ t) eqn:ET, (tx_chain_id t) as [c|] eqn:EC; cbn [is_legacy is_1559 negb app];
      rewrite ?blen_concat_cons; cbn [map concat]; rewrite ?blen_nil, ?parity_bool;
      change (blen (RLP (Num 0))) with 1; lia.
  Qed.

  Lemma layout_small : h_payload_length (tx_rlp_header t for_signing) < 2 ^ 64.
  Proof. rewrite layout_header. now apply small_lst. Qed.

  Lemma layout_rlp_len : tx_rlp_len t for_signing = blen (RLP (Lst (tx_fields t for_signing))).
  Proof.
    unfold tx_rlp_len. cbn [RLP]. unfold rlp_lst. rewrite blen_app, hdr_blen.
    - now rewrite layout_header.
    - rewrite <- layout_header. apply layout_small.
  Qed.

  Lemma layout_enc_header : encode_header (tx_rlp_header t for_signing) =
     hdr 0xC0 0xF7 (blen (concat (map RLP (tx_fields t for_signing)))).
  Proof. rewrite encode_header_hdr by apply layout_small. unfold hdr_of. now rewrite <- layout_header. Qed.

  Lemma legacy_encode_spec : tx_typ t = kLegacy ->
    legacy_encode t for_signing = RLP (Lst (tx_fields t for_signing)).
  Proof.
    intros ET. unfold legacy_encode. rewrite layout_enc_header.
    pose proof layout_data as D.
    destruct W as (Wn & Wp & Wf & Wg & Wto & Wval & Wd & Wc & Wr & Ws & Wal).
    rewrite (enc64 _ Wn), (enc256 _ Wf), (enc64 _ Wg), (encTo _ Wto), (enc256 _ Wval), (encB _ D), (enc256 _ Wr), (enc256 _ Ws).
    cbn [RLP]. unfold rlp_lst. f_equal.
    unfold tx_fields, signing_fields, unsigned_fields, cpp_signature_fields in *. rewrite ET in *. cbn [is_legacy] in *.
    clear B. destruct for_signing; cbn [negb].
    - destruct (tx_chain_id t); cbn [map concat app]; [rewrite (enc256 _ Wc)|]; rewrite ?app_nil_r; reflexivity.
    - rewrite (enc256 _ (tx_v_u256 t)). cbn [map concat app]. rewrite ?app_nil_r. reflexivity.
  Qed.

  Lemma eip2718_encode_spec wrap : is_legacy (tx_typ t) = false ->
    blen (RLP (Lst (tx_fields t for_signing))) + 1 < 2 ^ 64 ->
    eip2718_encode t for_signing wrap =
      (if wrap then rlp_str else fun x => x) (type_byte (tx_typ t) :: RLP (Lst (tx_fields t for_signing))).
  Proof.
    intros ET B1. unfold eip2718_encode. rewrite layout_enc_header, layout_rlp_len.
    rewrite encode_header_hdr by (cbn [h_payload_length]; lia).
    pose proof layout_data as D. pose proof (layout_al ET) as A. pose proof chain_u256 as C.
    destruct W as (Wn & Wp & Wf & Wg & Wto & Wval & Wd & Wc & Wr & Ws & Wal).
    rewrite (enc256 _ C), (enc64 _ Wn), (enc256 _ Wf), (enc64 _ Wg), (encTo _ Wto), (enc256 _ Wval), (encB _ D),
      (enc256 _ Wr), (enc256 _ Ws), (enc64 _ (u64_bool _)), (enc256 _ Wp).
    destruct (access_list_spec _ Wal A) as (-> & _).
    match goal with |- _ ++ [?ty] ++ ?body = _ =>
      assert (Hbody : body = RLP (Lst (tx_fields t for_signing))) end.
    { transitivity (rlp_lst (concat (map RLP (tx_fields t for_signing)))); [|reflexivity]. unfold rlp_lst. f_equal.
      unfold tx_fields, signing_fields, unsigned_fields, cpp_signature_fields, spec_chain_id, value_or0 in *. clear B B1.
      destruct (tx_typ t) eqn:EQ; try discriminate; cbn [is_1559 map concat app]; destruct for_signing; cbn [negb];
        destruct (tx_chain_id t); cbn [map concat app RLP]; rewrite ?app_nil_r, ?parity_bool, ?map_app, ?concat_app; cbn [map concat app RLP];
        rewrite ?app_nil_r, <- ?app_assoc; reflexivity. }
    rewrite Hbody. set (X := RLP (Lst (tx_fields t for_signing))) in *.
    destruct wrap; [|reflexivity]. rewrite rlp_str_alt.
    assert (needs_header (type_byte (tx_typ t) :: X) = true) as ->.
    { cbn. pose proof (rlp_lst_ne (concat (map RLP (tx_fields t for_signing)))) as Q.
      unfold X. cbn [RLP]. destruct (rlp_lst _); [congruence|reflexivity]. }
    unfold hdr_of. cbn [h_list h_payload_length]. rewrite blen_cons, (N.add_comm 1). reflexivity.
  Qed.
End Layout.
