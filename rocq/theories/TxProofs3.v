(** Proofs about the transaction codec: decoding. *)
From Verif Require Import Base BaseFacts RlpSpec RlpModel RlpProofs EcdsaModel TxModel TxSpec TxProofs TxProofs2.

Lemma d64 n r : u64 n -> decode_u64 (RLP (Num n) ++ r) = Ok (n, r).
Proof. intros H. apply decode_uint_rt; [lia|exact H]. Qed.
Lemma d256 n r : u256 n -> decode_u256 (RLP (Num n) ++ r) = Ok (n, r).
Proof. intros H. apply decode_uint_rt; [lia|exact H]. Qed.
Lemma dB s r : blen s < 2 ^ 64 -> decode_bytes (RLP (Str s) ++ r) = Ok (s, r).
Proof. apply decode_bytes_rt. Qed.
Lemma dbool (v : bool) r : decode_bool (RLP (Num (if v then 1 else 0)) ++ r) = Ok (v, r).
Proof. apply decode_bool_rt. Qed.

Lemma dTo to r : wf_to to -> decode_to (RLP (to_item to) ++ r) = Ok (to, r).
Proof.
  intros H. unfold decode_to. destruct to as [a|]; cbn [to_item wf_to] in *.
  - destruct H as [Ha Wa]. pose proof (decode_fixed_rt a r) as D. rewrite Ha in D.
    specialize (D eq_refl). cbn [RLP].
    assert (E : rlp_str a = 0x94 :: a).
    { rewrite <- encode_fixed_spec by lia. unfold encode_fixed. now rewrite Ha. }
    rewrite E in *. cbn [app at0 bind] in *.
    destruct (N.eqb_spec 148 128); [discriminate|].
    change (148 :: a ++ r) with ((148 :: a) ++ r) in *. rewrite D. reflexivity.
  - change (RLP (Str [])) with [128]. cbn [app at0 bind]. rewrite N.eqb_refl, remove_prefix_1. reflexivity.
Qed.

Lemma dAL al r : Forall wf_entry al -> blen (RLP (Lst (map access_item al))) < 2 ^ 64 ->
  decode_vector decode_entry (RLP (Lst (map access_item al)) ++ r) = Ok (al, r).
Proof.
  intros W B. destruct (access_list_spec al W B) as (_ & _ & Hok & Hm).
  cbn [RLP]. rewrite <- Hm. apply (decode_vector_rt ok_entry).
  - apply decode_entry_rt.
  - intros e _. unfold encode_entry, encode_header. destruct (_ <? _); discriminate.
  - exact Hok.
  - rewrite Hm. now apply small_lst.
Qed.

(** Inversions. *)
Lemma i64 b n r : view b -> decode_u64 b = Ok (n, r) -> b = RLP (Num n) ++ r /\ u64 n /\ view r.
Proof.
  intros V H. apply decode_uint_canon in H as (E & Hn & W); [|exact (view_wf _ V)].
  subst b. apply view_app in V as [_ V]. auto.
Qed.
Lemma i256 b n r : view b -> decode_u256 b = Ok (n, r) -> b = RLP (Num n) ++ r /\ u256 n /\ view r.
Proof.
  intros V H. apply decode_uint_canon in H as (E & Hn & W); [|exact (view_wf _ V)].
  subst b. apply view_app in V as [_ V]. auto.
Qed.
Lemma iB b s r : view b -> decode_bytes b = Ok (s, r) -> b = RLP (Str s) ++ r /\ wf_bytes s /\ view r.
Proof.
  intros V H. apply decode_bytes_canon in H as (E & Hn & W & _); [|exact (view_wf _ V)].
  subst b. apply view_app in V as [_ V]. auto.
Qed.
Lemma ibool b v r : view b -> decode_bool b = Ok (v, r) -> b = RLP (Num (if v then 1 else 0)) ++ r /\ view r.
Proof.
  intros V H. apply decode_bool_canon in H as (E & W); [|exact (view_wf _ V)].
  subst b. apply view_app in V as [_ V]. auto.
Qed.
Lemma iTo b to r : view b -> decode_to b = Ok (to, r) -> b = RLP (to_item to) ++ r /\ wf_to to /\ view r.
Proof.
  intros V. unfold decode_to. destruct b as [|x t]; [discriminate|]. cbn [at0 bind].
  destruct (N.eqb_spec x 128) as [->|Hx].
  - rewrite remove_prefix_1. cbn [bind]. intros [= <- <-]. split; [reflexivity|]. split; [exact I|].
    change (128 :: t) with ([128] ++ t) in V. now apply view_app in V.
  - destruct (decode_fixed 20 (x :: t)) as [[a f]| | |] eqn:E; cbn [bind]; try discriminate.
    intros [= <- <-]. apply decode_fixed_canon in E as (E & Ha & Wa & _); [|exact (view_wf _ V)].
    cbn [to_item RLP wf_to]. rewrite E in *. apply view_app in V as [_ V]. auto.
Qed.
Lemma iAL b al r : view b -> decode_vector decode_entry b = Ok (al, r) ->
  b = RLP (Lst (map access_item al)) ++ r /\ Forall wf_entry al /\ view r.
Proof.
  intros V H. apply (decode_vector_canon ok_entry encode_entry) in H as (Hok & E & B & Vr);
    [|apply decode_entry_canon|exact V].
  assert (Hm : map encode_entry al = map RLP (map access_item al)).
  { rewrite map_map. apply map_ext_in. intros e He. rewrite Forall_forall in Hok. destruct (Hok e He).
    now apply encode_entry_spec. }
  rewrite Hm in E. split; [exact E|]. split; [|exact Vr].
  eapply Forall_impl; [|exact Hok]. now intros e [? _].
Qed.

(** v <-> (parity, chain id) *)
Lemma v_roundtrip1 v : v < 2 ^ 256 ->
  let '(odd, c) := v_to_y_parity_and_chain_id v in
  y_parity_and_chain_id_to_v odd c = v /\ match c with Some x => x < 2 ^ 255 | None => True end.
Proof.
  intros H. unfold v_to_y_parity_and_chain_id, y_parity_and_chain_id_to_v.
  destruct (N.eqb_spec v 27) as [->|H27]; [cbn; auto|].
  destruct (N.eqb_spec v 28) as [->|H28]; [cbn; auto|]. cbn [orb].
  set (w := (v + 2 ^ 256 - 35) mod 2 ^ 256). 
  assert (Hw : w < 2 ^ 256) by (apply N.mod_lt; discriminate).
  assert (Hm : (w mod 2 ^ 64) mod 2 = w mod 2).
  { change (2 ^ 64) with (2 * 2 ^ 63). rewrite N.mod_mul_r by discriminate.
    rewrite N.mul_comm, N.mod_add by discriminate. now rewrite N.mod_mod. }
  rewrite Hm. assert (Ew : w / 2 * 2 + (if negb (w mod 2 =? 0) then 1 else 0) = w).
  { destruct (N.eqb_spec (w mod 2) 0); cbn [negb]; lia. }
  split.
  - replace (w / 2 * 2 + 35 + (if negb (w mod 2 =? 0) then 1 else 0)) with (w + 35) by lia.
    unfold w. rewrite N.add_mod_idemp_l by discriminate.
    replace (v + 2 ^ 256 - 35 + 35) with (v + 1 * 2 ^ 256) by (change (2^256) with 115792089237316195423570985008687907853269984665640564039457584007913129639936; lia).
    rewrite N.mod_add by discriminate. now apply N.mod_small.
  - apply N.div_lt_upper_bound; [discriminate|]. exact Hw.
Qed.

Lemma v_roundtrip2 t : spec_v t < 2 ^ 256 ->
  v_to_y_parity_and_chain_id (spec_v t) = (tx_odd_y_parity t, tx_chain_id t).
Proof.
  unfold spec_v, v_to_y_parity_and_chain_id. destruct (tx_chain_id t) as [c|].
  - set (p := if tx_odd_y_parity t then 1 else 0). intros H.
    destruct (N.eqb_spec (c * 2 + 35 + p) 27); [lia|]. destruct (N.eqb_spec (c * 2 + 35 + p) 28); [lia|]. cbn [orb].
    replace (c * 2 + 35 + p + 2 ^ 256 - 35) with (c * 2 + p + 1 * 2 ^ 256)
      by (change (2^256) with 115792089237316195423570985008687907853269984665640564039457584007913129639936; lia).
    rewrite N.mod_add by discriminate. rewrite (N.mod_small (c * 2 + p) (2 ^ 256)) by lia.
    assert (Hm : ((c * 2 + p) mod 2 ^ 64) mod 2 = p).
    { change (2 ^ 64) with (2 * 2 ^ 63). rewrite N.mod_mul_r by discriminate.
      rewrite (N.mul_comm 2 (_ mod 2 ^ 63)), N.mod_add by discriminate. rewrite N.mod_mod by discriminate. unfold p. destruct (tx_odd_y_parity t); lia. }
    rewrite Hm. replace ((c * 2 + p) / 2) with c by (unfold p; destruct (tx_odd_y_parity t); lia).
    unfold p. destruct (tx_odd_y_parity t); reflexivity.
  - destruct (tx_odd_y_parity t); reflexivity.
Qed.

Definition with_rest (t to0 : transaction) : transaction :=
  mkTx (tx_typ t) (tx_nonce t) (tx_max_priority_fee t) (tx_max_fee t) (tx_gas_limit t) (tx_to t) (tx_value t)
       (tx_data t) (tx_odd_y_parity t) (tx_chain_id t) (tx_r t) (tx_s t)
       (if is_legacy (tx_typ t) then tx_access_list to0 else tx_access_list t) (tx_from to0).

Lemma payload_assoc (x : item) l r : concat (map RLP (x :: l)) ++ r = RLP x ++ (concat (map RLP l) ++ r).
Proof. cbn [map concat]. now rewrite app_assoc. Qed.

Lemma legacy_decode_rt t to0 r : tx_typ t = kLegacy -> wf_tx t -> representable t ->
  blen (RLP (Lst (tx_fields t false))) < 2 ^ 64 ->
  legacy_decode to0 (concat (map RLP (tx_fields t false)) ++ r) = Ok (with_rest t to0, r).
Proof.
  intros ET W R B. pose proof (layout_data t false B) as D.
  destruct W as (Wn & Wp & Wf & Wg & Wto & Wval & Wd & Wc & Wr & Ws & Wal).
  unfold representable in R. rewrite ET in R. destruct R as (Rp & Ral & Rv).
  unfold tx_fields, unsigned_fields, cpp_signature_fields. rewrite ET. cbn [app].
  rewrite !payload_assoc. cbn [map concat app]. unfold legacy_decode.
  rewrite (d64 _ _ Wn). cbn [bind]. rewrite (d256 _ _ Wf). cbn [bind]. rewrite (d64 _ _ Wg). cbn [bind].
  rewrite (dTo _ _ Wto). cbn [bind]. rewrite (d256 _ _ Wval). cbn [bind]. rewrite (dB _ _ D). cbn [bind].
  rewrite (d256 _ _ (tx_v_u256 t)). cbn [bind]. rewrite tx_v_spec by exact Rv. rewrite v_roundtrip2 by exact Rv.
  rewrite (d256 _ _ Wr). cbn [bind]. rewrite (d256 _ _ Ws). cbn [bind].
  unfold with_rest. rewrite ET. cbn [is_legacy]. rewrite Rp. reflexivity.
Qed.

Lemma eip2718_decode_rt t to0 r : is_legacy (tx_typ t) = false -> wf_tx t -> representable t ->
  blen (RLP (Lst (tx_fields t false))) < 2 ^ 64 ->
  eip2718_decode (tx_typ t) to0 (RLP (Lst (tx_fields t false)) ++ r) = Ok (with_rest t to0, r).
Proof.
  intros ET W R B. pose proof (layout_data t false B) as D. pose proof (layout_al t false B ET) as A.
  destruct W as (Wn & Wp & Wf & Wg & Wto & Wval & Wd & Wc & Wr & Ws & Wal).
  unfold eip2718_decode. cbn [RLP]. rewrite decode_list_header by now apply small_lst.
  cbn [bind h_list negb]. clear B.
  unfold tx_fields, unsigned_fields, cpp_signature_fields, representable, with_rest in *.
  destruct (tx_typ t) eqn:EQ; [discriminate| |].
  - destruct R as [Rp Rc]. destruct (tx_chain_id t) as [c|] eqn:EC; [|congruence].
    unfold spec_chain_id. rewrite EC. cbn [app is_1559 is_legacy]. rewrite !payload_assoc. cbn [map concat app].
    rewrite (d256 _ _ Wc). cbn [bind]. rewrite (d64 _ _ Wn). cbn [bind]. rewrite (d256 _ _ Wf). cbn [bind].
    rewrite (d64 _ _ Wg). cbn [bind]. rewrite (dTo _ _ Wto). cbn [bind]. rewrite (d256 _ _ Wval). cbn [bind].
    rewrite (dB _ _ D). cbn [bind]. rewrite (dAL _ _ Wal A). cbn [bind]. rewrite dbool. cbn [bind].
    rewrite (d256 _ _ Wr). cbn [bind]. rewrite (d256 _ _ Ws). cbn [bind]. now rewrite Rp.
  - destruct (tx_chain_id t) as [c|] eqn:EC; [|congruence].
    unfold spec_chain_id. rewrite EC. cbn [app is_1559 is_legacy]. rewrite !payload_assoc. cbn [map concat app].
    rewrite (d256 _ _ Wc). cbn [bind]. rewrite (d64 _ _ Wn). cbn [bind]. rewrite (d256 _ _ Wp). cbn [bind].
    rewrite (d256 _ _ Wf). cbn [bind].
    rewrite (d64 _ _ Wg). cbn [bind]. rewrite (dTo _ _ Wto). cbn [bind]. rewrite (d256 _ _ Wval). cbn [bind].
    rewrite (dB _ _ D). cbn [bind]. rewrite (dAL _ _ Wal A). cbn [bind]. rewrite dbool. cbn [bind].
    rewrite (d256 _ _ Wr). cbn [bind]. rewrite (d256 _ _ Ws). cbn [bind]. reflexivity.
Qed.

(** Wire form as the code produces it. *)
Definition cpp_wire (t : transaction) : bytes :=
  if is_legacy (tx_typ t) then RLP (Lst (tx_fields t false))
  else rlp_str (type_byte (tx_typ t) :: RLP (Lst (tx_fields t false))).

Lemma encode_tx_wire t : wf_tx t -> blen (RLP (Lst (tx_fields t false))) + 1 < 2 ^ 64 -> encode_tx t = cpp_wire t.
Proof.
  intros W B. unfold encode_tx, encode_tx_gen, cpp_wire. destruct (is_legacy (tx_typ t)) eqn:EL.
  - apply legacy_encode_spec; [exact W|lia|]. destruct (tx_typ t); try discriminate; reflexivity.
  - rewrite eip2718_encode_spec; auto. lia.
Qed.

Lemma RLP_Lst_ne l : exists x t, RLP (Lst l) = x :: t.
Proof. pose proof (RLP_ne (Lst l)). destruct (RLP (Lst l)) as [|x t]; [congruence|eauto]. Qed.

Lemma decode_tx_rt t to0 r : wf_tx t -> representable t ->
  blen (RLP (Lst (tx_fields t false))) + 1 < 2 ^ 64 ->
  decode_tx_into to0 (cpp_wire t ++ r) = Ok (with_rest t to0, r).
Proof.
  intros W R B. unfold cpp_wire. destruct (is_legacy (tx_typ t)) eqn:EL.
  - unfold decode_tx_into. cbn [RLP]. rewrite decode_list_header by (apply small_lst; lia).
    cbn [bind h_list h_payload_length]. rewrite legacy_decode_rt; auto.
    + cbn [bind]. rewrite blen_app.
      match goal with |- context [blen r =? ?x] => replace x with (blen r) by lia end.
      now rewrite N.eqb_refl.
    + destruct (tx_typ t); try discriminate; reflexivity.
    + lia.
  - unfold decode_tx_into. destruct (RLP_Lst_ne (tx_fields t false)) as (x & t' & EX).
    set (X := RLP (Lst (tx_fields t false))) in *.
    rewrite rlp_str_alt. assert (needs_header (type_byte (tx_typ t) :: X) = true) as -> by (rewrite EX; reflexivity).
    rewrite <- app_assoc.
    change (hdr 128 183 (blen (type_byte (tx_typ t) :: X))) with (hdr_of (mkHeader false (blen (type_byte (tx_typ t) :: X)))).
    rewrite (decode_header_fwd (mkHeader false (blen (type_byte (tx_typ t) :: X)))); cbn [h_list h_payload_length].
    + cbn [bind h_list h_payload_length]. rewrite blen_cons. destruct (N.eqb_spec (1 + blen X) 0); [lia|].
      cbn [app at0 bind]. rewrite remove_prefix_1. cbn [bind].
      replace (1 + blen X - 1) with (blen X) by lia.
      rewrite substr0_app, remove_prefix_app.
      assert (K : eip2718_decode (tx_typ t) to0 X = Ok (with_rest t to0, [])).
      { pose proof (eip2718_decode_rt t to0 [] EL W R) as K. rewrite app_nil_r in K. apply K. fold X. lia. }
      destruct (tx_typ t) eqn:EQ; [discriminate| |]; cbn [type_byte]; cbn [N.eqb Pos.eqb]; rewrite K; cbn [bind]; reflexivity.
    + rewrite blen_cons. lia.
    + rewrite blen_app. lia.
    + rewrite blen_cons, EX, blen_cons. lia.
Qed.

(** Canonicity *)
Lemma legacy_decode_inv to0 b t r : view b -> legacy_decode to0 b = Ok (t, r) ->
  tx_typ t = kLegacy /\ b = concat (map RLP (tx_fields t false)) ++ r /\
  (Forall wf_entry (tx_access_list to0) -> wf_tx t) /\
  tx_max_priority_fee t = tx_max_fee t /\ tx_access_list t = tx_access_list to0 /\ tx_from t = tx_from to0.
Proof.
  intros V. unfold legacy_decode.
  destruct (decode_u64 b) as [[nonce f1]| | |] eqn:E; cbn [bind]; try discriminate.
  apply i64 in E as (-> & Un & V1); [|exact V]. clear V.
  destruct (decode_u256 f1) as [[fee f2]| | |] eqn:E; cbn [bind]; try discriminate.
  apply i256 in E as (-> & Uf & V2); [|exact V1]. clear V1.
  destruct (decode_u64 f2) as [[gas f3]| | |] eqn:E; cbn [bind]; try discriminate.
  apply i64 in E as (-> & Ug & V3); [|exact V2]. clear V2.
  destruct (decode_to f3) as [[to f4]| | |] eqn:E; cbn [bind]; try discriminate.
  apply iTo in E as (-> & Uto & V4); [|exact V3]. clear V3.
  destruct (decode_u256 f4) as [[value f5]| | |] eqn:E; cbn [bind]; try discriminate.
  apply i256 in E as (-> & Uv & V5); [|exact V4]. clear V4.
  destruct (decode_bytes f5) as [[data f6]| | |] eqn:E; cbn [bind]; try discriminate.
  apply iB in E as (-> & Ud & V6); [|exact V5]. clear V5.
  destruct (decode_u256 f6) as [[v f7]| | |] eqn:E; cbn [bind]; try discriminate.
  apply i256 in E as (-> & Uvv & V7); [|exact V6]. clear V6.
  pose proof (v_roundtrip1 v Uvv) as RV.
  destruct (v_to_y_parity_and_chain_id v) as [odd c].
  destruct (decode_u256 f7) as [[rr f8]| | |] eqn:E; cbn [bind]; try discriminate.
  apply i256 in E as (-> & Ur & V8); [|exact V7]. clear V7.
  destruct (decode_u256 f8) as [[ss f9]| | |] eqn:E; cbn [bind]; try discriminate.
  apply i256 in E as (-> & Us & V9); [|exact V8]. clear V8.
  intros [= <- <-]. destruct RV as [RV Rc].
  repeat split; auto.
  - unfold tx_fields, unsigned_fields, cpp_signature_fields, tx_v. cbn [tx_typ tx_odd_y_parity tx_chain_id app].
    rewrite RV. rewrite !payload_assoc. reflexivity.
  - cbn [tx_chain_id]. destruct c; [|exact I]. eapply N.lt_trans; [exact Rc|reflexivity].
Qed.

Lemma eip2718_decode_inv typ to0 b t r : is_legacy typ = false -> view b -> eip2718_decode typ to0 b = Ok (t, r) ->
  exists n p, decode_header b = Ok (mkHeader true n, p) /\ b = hdr 0xC0 0xF7 n ++ p /\ n <= blen p /\ n < 2 ^ 64 /\
    p = concat (map RLP (tx_fields t false)) ++ r /\
    tx_typ t = typ /\ wf_tx t /\ representable t /\ tx_from t = tx_from to0.
Proof.
  intros EL V. unfold eip2718_decode.
  destruct (decode_header b) as [[[l n] f0]| | |] eqn:E; cbn [bind h_list]; try discriminate.
  destruct l; cbn [negb]; [|discriminate].
  pose proof E as E'. apply decode_header_inv in E' as (Hl & H64 & Hc); [|exact (view_wf _ V)].
  cbn [h_payload_length] in *. destruct Hc as [(Hc & _)|(Eb & _)]; [discriminate|].
  unfold hdr_of in Eb. cbn [h_list h_payload_length] in Eb.
  rewrite Eb in V. apply view_app in V as [_ V].
  intros H. exists n, f0. split; [reflexivity|]. split; [exact Eb|]. split; [exact Hl|]. split; [exact H64|].
  clear E Eb Hl H64. revert H.
  destruct (decode_u256 f0) as [[cid f1]| | |] eqn:E; cbn [bind]; try discriminate.
  apply i256 in E as (-> & Uc & V1); [|exact V]. clear V.
  destruct (decode_u64 f1) as [[nonce f2]| | |] eqn:E; cbn [bind]; try discriminate.
  apply i64 in E as (-> & Un & V2); [|exact V1]. clear V1.
  destruct (decode_u256 f2) as [[prio f3]| | |] eqn:E; cbn [bind]; try discriminate.
  apply i256 in E as (-> & Up & V3); [|exact V2]. clear V2.
  match goal with |- (let* '(fee, from) := ?e in _) = _ -> _ => destruct e as [[fee f4]| | |] eqn:E end; cbn [bind]; try discriminate.
  assert (HF : RLP (Num prio) ++ f3 = (if is_1559 typ then RLP (Num prio) ++ RLP (Num fee) ++ f4 else RLP (Num fee) ++ f4) /\
               u256 fee /\ view f4 /\ (is_1559 typ = false -> prio = fee)).
  { destruct (is_1559 typ).
    - apply i256 in E as (-> & Uf & V4); [|exact V3]. split; [reflexivity|]. split; [exact Uf|]. split; [exact V4|]. discriminate.
    - injection E as <- <-. auto. }
  destruct HF as (HF & Uf & V4 & Heq). rewrite HF. clear HF E V3.
  destruct (decode_u64 f4) as [[gas f5]| | |] eqn:E; cbn [bind]; try discriminate.
  apply i64 in E as (-> & Ug & V5); [|exact V4]. clear V4.
  destruct (decode_to f5) as [[to f6]| | |] eqn:E; cbn [bind]; try discriminate.
  apply iTo in E as (-> & Uto & V6); [|exact V5]. clear V5.
  destruct (decode_u256 f6) as [[value f7]| | |] eqn:E; cbn [bind]; try discriminate.
  apply i256 in E as (-> & Uv & V7); [|exact V6]. clear V6.
  destruct (decode_bytes f7) as [[data f8]| | |] eqn:E; cbn [bind]; try discriminate.
  apply iB in E as (-> & Ud & V8); [|exact V7]. clear V7.
  destruct (decode_vector decode_entry f8) as [[al f9]| | |] eqn:E; cbn [bind]; try discriminate.
  apply iAL in E as (-> & Ual & V9); [|exact V8]. clear V8.
  destruct (decode_bool f9) as [[odd f10]| | |] eqn:E; cbn [bind]; try discriminate.
  apply ibool in E as (-> & V10); [|exact V9]. clear V9.
  destruct (decode_u256 f10) as [[rr f11]| | |] eqn:E; cbn [bind]; try discriminate.
  apply i256 in E as (-> & Ur & V11); [|exact V10]. clear V10.
  destruct (decode_u256 f11) as [[ss f12]| | |] eqn:E; cbn [bind]; try discriminate.
  apply i256 in E as (-> & Us & V12); [|exact V11]. clear V11.
  intros [= <- <-].
  split; [|repeat split; auto].
  - unfold tx_fields, unsigned_fields, cpp_signature_fields, spec_chain_id.
    cbn [tx_typ tx_odd_y_parity tx_chain_id tx_nonce tx_max_fee tx_max_priority_fee tx_gas_limit tx_to tx_value tx_data
         tx_access_list tx_r tx_s].
    destruct typ; [discriminate| |]; cbn [is_1559 app] in *; rewrite !payload_assoc; reflexivity.
  - unfold representable. cbn [tx_typ tx_max_priority_fee tx_max_fee tx_chain_id].
    destruct typ; [discriminate| |]; [split; [now apply Heq|discriminate]|discriminate].
Qed.
