(** Proofs about the transaction codec: final statements. *)
From Verif Require Import Base BaseFacts RlpSpec RlpModel RlpProofs EcdsaModel TxModel TxSpec TxProofs TxProofs2 TxProofs3.

Lemma small_tx_fields t : v_fits t -> small_tx t ->
  blen (RLP (Lst (tx_fields t false))) + (if is_legacy (tx_typ t) then 0 else 1) < 2 ^ 64.
Proof.
  intros V H. rewrite tx_fields_spec by exact V. unfold small_tx, envelope, spec_signed_item in H.
  destruct (tx_typ t); cbn [is_legacy]; rewrite ?blen_cons in H; lia.
Qed.

Lemma wire_tx_cpp t : v_fits t -> wire_tx t = cpp_wire t.
Proof.
  intros V. unfold wire_tx, cpp_wire, envelope, spec_signed_item. rewrite <- tx_fields_spec by exact V.
  destruct (tx_typ t); reflexivity.
Qed.

Lemma cpp_wire_len t : is_legacy (tx_typ t) = true -> blen (cpp_wire t) = blen (RLP (Lst (tx_fields t false))).
Proof. unfold cpp_wire. now intros ->. Qed.

Lemma encode_tx_cpp t : wf_tx t ->
  blen (RLP (Lst (tx_fields t false))) + (if is_legacy (tx_typ t) then 0 else 1) < 2 ^ 64 -> encode_tx t = cpp_wire t.
Proof.
  intros W B. destruct (is_legacy (tx_typ t)) eqn:EL.
  - unfold encode_tx, encode_tx_gen, cpp_wire. rewrite EL.
    apply legacy_encode_spec; [exact W|lia|]. destruct (tx_typ t); try discriminate; reflexivity.
  - apply encode_tx_wire; auto.
Qed.

Lemma encode_tx_is_wire t : wf_tx t -> v_fits t -> small_tx t -> encode_tx t = wire_tx t.
Proof. intros W V S. rewrite wire_tx_cpp by exact V. apply encode_tx_cpp; [exact W|]. now apply small_tx_fields. Qed.

Lemma representable_v t : representable t -> v_fits t.
Proof. unfold representable, v_fits. destruct (tx_typ t); cbn; intuition discriminate. Qed.

Lemma decode_tx_rt' t to0 r : wf_tx t -> representable t -> small_tx t ->
  decode_tx_into to0 (encode_tx t ++ r) = Ok (with_rest t to0, r).
Proof.
  intros W R S. pose proof (small_tx_fields t (representable_v t R) S) as B.
  rewrite encode_tx_cpp by assumption.
  destruct (is_legacy (tx_typ t)) eqn:EL; [|now apply decode_tx_rt].
  unfold cpp_wire. rewrite EL. unfold decode_tx_into. cbn [RLP]. rewrite decode_list_header by (apply small_lst; lia).
  cbn [bind h_list h_payload_length]. rewrite legacy_decode_rt; auto.
  - cbn [bind]. rewrite blen_app.
    match goal with |- context [blen r =? ?x] => replace x with (blen r) by lia end.
    now rewrite N.eqb_refl.
  - destruct (tx_typ t); try discriminate; reflexivity.
  - lia.
Qed.

(** Canonicity. *)
Lemma decode_tx_inv b t r : view b -> decode_tx b = Ok (t, r) ->
  wf_tx t /\ tx_from t = None /\
  match tx_typ t with
  | kLegacy => b = RLP (Lst (tx_fields t false)) ++ r /\ tx_max_priority_fee t = tx_max_fee t /\ tx_access_list t = []
  | typ => exists n, n <= blen (concat (map RLP (tx_fields t false))) /\
      b = rlp_str (type_byte typ :: hdr 0xC0 0xF7 n ++ concat (map RLP (tx_fields t false))) ++ r /\ representable t
  end.
Proof.
  intros V. unfold decode_tx, decode_tx_into.
  destruct (decode_header b) as [[[l n] f]| | |] eqn:E; cbn [bind h_list h_payload_length]; try discriminate.
  destruct l.
  - apply decode_list_header_inv in E as (p & r' & -> & Hp & H64 & -> & Wp & Wr'); [|exact (view_wf _ V)].
    assert (Vp : view (p ++ r')).
    { destruct V as [Wv Lv]. split; [now apply wf_app|]. unfold rlp_lst in Lv. rewrite !blen_app in *. lia. }
    destruct (legacy_decode tx_default (p ++ r')) as [[t0 f0]| | |] eqn:E; cbn [bind]; try discriminate.
    destruct (N.eqb_spec (blen f0) (blen (p ++ r') - n)) as [Hlen|]; [|discriminate].
    intros [= -> ->]. apply legacy_decode_inv in E as (ET & Ep & W & Hprio & Hal & Hfrom); [|exact Vp].
    split; [apply W; constructor|]. split; [exact Hfrom|]. rewrite ET.
    rewrite blen_app in Hlen. apply app_eq_length in Ep as [-> ->].
    2: { pose proof (f_equal blen Ep) as X. rewrite !blen_app in X. unfold blen in *. lia. }
    repeat split; auto.
  - destruct (N.eqb_spec n 0); [discriminate|].
    apply decode_header_inv in E as (Hl & H64 & Hc); [|exact (view_wf _ V)]. cbn [h_list h_payload_length] in *.
    assert (HB : exists x q r', f = x :: q ++ r' /\ blen q = n - 1 /\ view q /\
              ((b = hdr_of (mkHeader false n) ++ f /\ (n = 1 -> 128 <= x)) \/ (n = 1 /\ b = f /\ x < 128))).
    { destruct Hc as [(Hh & -> & c & q & -> & Hlt)|[Eb Hone]].
      - injection Hh as ->. exists c, [], q. repeat split; auto. constructor.
      - rewrite Eb in V. apply view_app in V as [_ V]. destruct f as [|x f]; [rewrite blen_nil in Hl; lia|].
        rewrite blen_cons in Hl. destruct (split_view (n - 1) f) as (q & r' & -> & Hq); [lia|].
        exists x, q, r'. split; [reflexivity|]. split; [exact Hq|]. split.
        { change (x :: q ++ r') with ([x] ++ q ++ r') in V. apply view_app in V as [_ V]. now apply view_app in V. }
        left. split; [exact Eb|]. intros H1. destruct (Hone eq_refl H1) as (c & t' & Heq & Hc). injection Heq as Hx _. now rewrite Hx. }
    clear Hc. destruct HB as (x & q & r' & -> & Hq & Vq & Hc). cbn [at0 bind]. rewrite remove_prefix_1. cbn [bind].
    rewrite <- Hq, substr0_app, remove_prefix_app.
    assert (K : forall typ, is_legacy typ = false -> x = type_byte typ ->
      (let* '(t, view) := eip2718_decode typ tx_default q in
       match view with [] => let* from := Ok r' in Ok (t, from) | _ => Err kListLengthMismatch end) = Ok (t, r) ->
      wf_tx t /\ tx_from t = None /\ tx_typ t = typ /\ exists n, n <= blen (concat (map RLP (tx_fields t false))) /\
      b = rlp_str (type_byte typ :: hdr 0xC0 0xF7 n ++ concat (map RLP (tx_fields t false))) ++ r /\ representable t).
    { intros typ EL Ex. destruct (eip2718_decode typ tx_default q) as [[t0 v0]| | |] eqn:E; cbn [bind]; try discriminate.
      destruct v0; [|discriminate]. intros [= -> <-].
      apply eip2718_decode_inv in E as (m & p & _ & Eq & Hm & Hm64 & Ep & ET & W & R & Hfrom); [|exact EL|exact Vq].
      rewrite app_nil_r in Ep. subst p. split; [exact W|]. split; [exact Hfrom|]. split; [exact ET|].
      exists m. split; [exact Hm|]. split; [|exact R]. rewrite <- Eq.
      assert (Hqne : q <> []). { intros ->. unfold hdr in Eq. destruct (m <? 56); discriminate. }
      destruct Hc as [[-> _]|(H1 & _)].
      2: { destruct q; [congruence|]. rewrite blen_cons in Hq. lia. }
      rewrite rlp_str_alt. assert (needs_header (type_byte typ :: q) = true) as -> by (destruct q; [congruence|reflexivity]).
      rewrite <- app_assoc. subst x. unfold hdr_of. cbn [h_list h_payload_length]. rewrite blen_cons.
      replace (1 + blen q) with n by lia. reflexivity. }
    destruct (N.eqb_spec x 1) as [->|].
    + intros H. apply (K kEip2930) in H as (W & Hf & ET & H); auto. now rewrite ET.
    + destruct (N.eqb_spec x 2) as [->|]; [|discriminate].
      intros H. apply (K kEip1559) in H as (W & Hf & ET & H); auto. now rewrite ET.
Qed.

Lemma decode_tx_canon_legacy b t r : view b -> decode_tx b = Ok (t, r) -> tx_typ t = kLegacy -> b = encode_tx t ++ r.
Proof.
  intros V H ET. apply decode_tx_inv in H as (W & _ & H); [|exact V]. rewrite ET in H. destruct H as (-> & _).
  rewrite encode_tx_cpp.
  - unfold cpp_wire. rewrite ET. reflexivity.
  - exact W.
  - rewrite ET. cbn [is_legacy]. destruct V as [_ V]. rewrite blen_app in V. lia.
Qed.

(** For typed transactions the only freedom is the inner list header. *)
Lemma decode_tx_canon_typed b t r : view b -> decode_tx b = Ok (t, r) -> tx_typ t <> kLegacy ->
  exists n, n <= blen (concat (map RLP (unsigned_fields t ++ signature_fields t))) /\
   b = RLP (Str (type_byte (tx_typ t) :: hdr 0xC0 0xF7 n ++ concat (map RLP (unsigned_fields t ++ signature_fields t)))) ++ r /\
   (n = blen (concat (map RLP (unsigned_fields t ++ signature_fields t))) -> b = encode_tx t ++ r).
Proof.
  intros V H ET. apply decode_tx_inv in H as (W & _ & H); [|exact V].
  assert (EL : is_legacy (tx_typ t) = false) by (destruct (tx_typ t); [congruence|reflexivity|reflexivity]).
  assert (F : v_fits t) by (unfold v_fits; rewrite EL; discriminate).
  rewrite <- tx_fields_spec by exact F.
  assert (H' : exists n, n <= blen (concat (map RLP (tx_fields t false))) /\
      b = rlp_str (type_byte (tx_typ t) :: hdr 0xC0 0xF7 n ++ concat (map RLP (tx_fields t false))) ++ r /\ representable t).
  { destruct (tx_typ t); [congruence|exact H|exact H]. }
  destruct H' as (n & Hn & Eb & R). exists n. split; [exact Hn|]. split; [exact Eb|].
  intros En. rewrite encode_tx_cpp; [|exact W|].
  - unfold cpp_wire. rewrite EL. rewrite Eb, En. reflexivity.
  - rewrite EL. destruct V as [_ V]. rewrite Eb, blen_app in V.
    pose proof (rlp_str_blen_ge (type_byte (tx_typ t) :: hdr 192 247 n ++ concat (map RLP (tx_fields t false)))) as G.
    rewrite En in *. rewrite blen_cons in G. cbn [RLP]. unfold rlp_lst. lia.
Qed.

(** Safety. *)
Definition at_end {A} (d : res (A * bytes)) : Prop := exists a, d = Ok (a, []).

Lemma decode_to_safe b : b <> [] -> safe (decode_to b).
Proof.
  intros H. unfold decode_to. destruct b as [|x t]; [congruence|]. cbn [at0 bind].
  destruct (x =? 128).
  - rewrite remove_prefix_1. apply safe_ok.
  - apply safe_bind; [apply decode_fixed_safe|]. intros [a f] _. apply safe_ok.
Qed.

Lemma decode_to_nil : decode_to [] = UB.
Proof. reflexivity. Qed.

(** [bad r P]: never out of fuel, undefined behaviour only under [P]. *)
Definition guarded {A} (r : res A) (P : Prop) : Prop := r <> NoFuel /\ (r = UB -> P).

Lemma guarded_safe {A} (r : res A) P : safe r -> guarded r P.
Proof. intros [H1 H2]. split; [exact H2|]. congruence. Qed.
Lemma guarded_ok {A} (a : A) P : guarded (Ok a) P.
Proof. split; congruence. Qed.
Lemma guarded_err {A} e P : guarded (@Err A e) P.
Proof. split; congruence. Qed.
Lemma guarded_bind {A B} (r : res A) (f : A -> res B) P :
  guarded r P -> (forall a, r = Ok a -> guarded (f a) P) -> guarded (bind r f) P.
Proof.
  intros [H1 H2] Hf. destruct r; cbn [bind].
  - now apply Hf. - apply guarded_err. - split; [discriminate|]. intros _. now apply H2. - congruence.
Qed.
Lemma guarded_impl {A} (r : res A) (P Q : Prop) : (P -> Q) -> guarded r P -> guarded r Q.
Proof. intros H [H1 H2]. split; auto. Qed.

Lemma decode_to_guarded b (P : Prop) : (b = [] -> P) -> guarded (decode_to b) P.
Proof.
  intros H. destruct b as [|x t]; [|apply guarded_safe, decode_to_safe; discriminate].
  rewrite decode_to_nil. split; [discriminate|auto].
Qed.

Lemma legacy_decode_guarded to0 b : view b -> guarded (legacy_decode to0 b) (ends_before_to_legacy b).
Proof.
  intros V. unfold legacy_decode.
  apply guarded_bind; [apply guarded_safe, decode_uint_safe|]. intros [nonce f1] E1.
  apply guarded_bind; [apply guarded_safe, decode_uint_safe|]. intros [fee f2] E2.
  apply guarded_bind; [apply guarded_safe, decode_uint_safe|]. intros [gas f3] E3.
  apply guarded_bind.
  { apply decode_to_guarded. intros ->.
    apply i64 in E1 as (-> & Un & V1); [|exact V].
    apply i256 in E2 as (-> & Uf & V2); [|exact V1].
    apply i64 in E3 as (-> & Ug & V3); [|exact V2].
    exists nonce, fee, gas. auto. }
  intros [to f4] _.
  apply guarded_bind; [apply guarded_safe, decode_uint_safe|]. intros [value f5] _.
  apply guarded_bind; [apply guarded_safe, decode_bytes_safe|]. intros [data f6] _.
  apply guarded_bind; [apply guarded_safe, decode_uint_safe|]. intros [v f7] _.
  destruct (v_to_y_parity_and_chain_id v) as [odd c].
  apply guarded_bind; [apply guarded_safe, decode_uint_safe|]. intros [rr f8] _.
  apply guarded_bind; [apply guarded_safe, decode_uint_safe|]. intros [ss f9] _.
  apply guarded_ok.
Qed.

Lemma eip2718_decode_guarded typ to0 b : view b -> guarded (eip2718_decode typ to0 b) (ends_before_to_typed typ b).
Proof.
  intros V. unfold eip2718_decode.
  apply guarded_bind; [apply guarded_safe, decode_header_safe|]. intros [[l n] f0] E0. cbn [h_list].
  destruct l; cbn [negb]; [|apply guarded_err].
  apply guarded_bind; [apply guarded_safe, decode_uint_safe|]. intros [cid f1] E1.
  apply guarded_bind; [apply guarded_safe, decode_uint_safe|]. intros [nonce f2] E2.
  apply guarded_bind; [apply guarded_safe, decode_uint_safe|]. intros [prio f3] E3.
  apply guarded_bind; [destruct (is_1559 typ); [apply guarded_safe, decode_uint_safe|apply guarded_ok]|]. intros [fee f4] E4.
  apply guarded_bind; [apply guarded_safe, decode_uint_safe|]. intros [gas f5] E5.
  apply guarded_bind.
  { apply decode_to_guarded. intros ->.
    apply decode_header_inv in E0 as (Hl & H64 & Hc); [|exact (view_wf _ V)].
    cbn [h_payload_length] in *. destruct Hc as [(Hc & _)|(Eb & _)]; [discriminate|].
    unfold hdr_of in Eb. cbn [h_list h_payload_length] in Eb. rewrite Eb in *. apply view_app in V as [_ V].
    apply i256 in E1 as (-> & Uc & V1); [|exact V].
    apply i64 in E2 as (-> & Un & V2); [|exact V1].
    apply i256 in E3 as (-> & Up & V3); [|exact V2].
    assert (U : forall x, u64 x -> u256 x) by apply u64_u256.
    unfold ends_before_to_typed. exists n. destruct (is_1559 typ).
    - apply i256 in E4 as (-> & Uf & V4); [|exact V3].
      apply i64 in E5 as (-> & Ug & V5); [|exact V4].
      exists [Num cid; Num nonce; Num prio; Num fee; Num gas]. repeat split; auto. repeat constructor; eauto.
    - injection E4 as <- <-.
      apply i64 in E5 as (-> & Ug & V5); [|exact V3].
      exists [Num cid; Num nonce; Num prio; Num gas]. repeat split; auto. repeat constructor; eauto. }
  intros [to f6] _.
  apply guarded_bind; [apply guarded_safe, decode_uint_safe|]. intros [value f7] _.
  apply guarded_bind; [apply guarded_safe, decode_bytes_safe|]. intros [data f8] _.
  apply guarded_bind.
  { apply guarded_safe. apply decode_vector_safe; [apply decode_entry_safe|apply decode_entry_consumes]. }
  intros [al f9] _.
  apply guarded_bind; [apply guarded_safe, decode_bool_safe|]. intros [odd f10] _.
  apply guarded_bind; [apply guarded_safe, decode_uint_safe|]. intros [rr f11] _.
  apply guarded_bind; [apply guarded_safe, decode_uint_safe|]. intros [ss f12] _.
  apply guarded_ok.
Qed.

Lemma decode_tx_guarded b : view b -> guarded (decode_tx b) (truncated_at_to b).
Proof.
  intros V. unfold decode_tx, decode_tx_into.
  apply guarded_bind; [apply guarded_safe, decode_header_safe|]. intros [[l n] f] E. cbn [h_list h_payload_length].
  apply decode_header_inv in E as (Hl & H64 & Hc); [|exact (view_wf _ V)]. cbn [h_list h_payload_length] in *.
  destruct l.
  - destruct Hc as [(Hc & _)|(Eb & _)]; [discriminate|]. unfold hdr_of in Eb. cbn [h_list h_payload_length] in Eb.
    rewrite Eb in V. apply view_app in V as [_ V].
    apply guarded_bind.
    + eapply guarded_impl; [|apply legacy_decode_guarded; exact V]. intros H. left. exists n, f. auto.
    + intros [t f'] _. destruct (_ =? _); [apply guarded_ok|apply guarded_err].
  - destruct (N.eqb_spec n 0); [apply guarded_err|].
    destruct f as [|x f]; [rewrite blen_nil in Hl; lia|]. cbn [at0 bind]. rewrite remove_prefix_1. cbn [bind].
    rewrite blen_cons in Hl. destruct (split_view (n - 1) f) as (q & r' & -> & Hq); [lia|].
    rewrite <- Hq, substr0_app, remove_prefix_app. cbn [bind].
    assert (Vq : view q).
    { destruct Hc as [(_ & Eb & _)|(Eb & _)]; [rewrite <- Eb in V|rewrite Eb in V; apply view_app in V as [_ V]];
      change (x :: q ++ r') with ([x] ++ q ++ r') in V; apply view_app in V as [_ V]; now apply view_app in V. }
    assert (K : forall typ, is_legacy typ = false -> x = type_byte typ ->
      guarded (let* '(t, view) := eip2718_decode typ tx_default q in
       match view with [] => Ok (t, r') | _ => Err kListLengthMismatch end) (truncated_at_to b)).
    { intros typ EL Ex. apply guarded_bind.
      - eapply guarded_impl; [|apply eip2718_decode_guarded; exact Vq]. intros H. right. exists typ, q, r'.
        split; [exact EL|]. split; [exact H|].
        assert (Hqne : q <> []). { destruct H as (m & l & _ & _ & _ & ->). unfold hdr. destruct (m <? 56); discriminate. }
        destruct Hc as [(Hc & _)|(Eb & _)].
        { injection Hc as ->. destruct q; [congruence|]. rewrite blen_cons in Hq. lia. }
        rewrite Eb. cbn [RLP]. rewrite rlp_str_alt.
        assert (needs_header (type_byte typ :: q) = true) as -> by (destruct q; [congruence|reflexivity]).
        rewrite <- app_assoc. subst x. unfold hdr_of. cbn [h_list h_payload_length]. rewrite blen_cons.
        replace (1 + blen q) with n by lia. reflexivity.
      - intros [t v] _. destruct v; [apply guarded_ok|apply guarded_err]. }
    destruct (N.eqb_spec x 1) as [->|]; [now apply (K kEip2930)|].
    destruct (N.eqb_spec x 2) as [->|]; [now apply (K kEip1559)|]. apply guarded_err.
Qed.

(** Lengths. *)
Lemma length_tx_exact t : wf_tx t -> small_tx t -> v_fits t -> length_tx t = blen (encode_tx t).
Proof.
  intros W S F. pose proof (small_tx_fields t F S) as B. rewrite encode_tx_cpp by assumption.
  unfold cpp_wire, length_tx. 
  assert (B' : blen (RLP (Lst (tx_fields t false))) < 2 ^ 64) by (destruct (is_legacy (tx_typ t)); lia).
  rewrite (layout_rlp_len t false W B'). destruct (is_legacy (tx_typ t)); [reflexivity|].
  rewrite rlp_str_alt. destruct (RLP_Lst_ne (tx_fields t false)) as (x & t' & EX).
  set (X := RLP (Lst (tx_fields t false))) in *.
  assert (needs_header (type_byte (tx_typ t) :: X) = true) as -> by (rewrite EX; reflexivity).
  rewrite blen_app, blen_cons, hdr_blen by lia.
  replace (1 + blen X) with (blen X + 1) by lia. lia.
Qed.

(** Signing encodings. *)
Lemma signing_encoding t : wf_tx t -> small_signing t -> encode_tx_gen t true false = envelope t (spec_signing_item t).
Proof.
  intros W S. unfold small_signing in S. unfold encode_tx_gen, envelope in *. unfold spec_signing_item in *.
  change (signing_fields t) with (tx_fields t true) in *.
  destruct (is_legacy (tx_typ t)) eqn:EL.
  - assert (ET : tx_typ t = kLegacy) by (destruct (tx_typ t); try discriminate; reflexivity).
    rewrite ET in *. apply legacy_encode_spec; auto.
  - assert (B : blen (RLP (Lst (tx_fields t true))) + 1 < 2 ^ 64).
    { destruct (tx_typ t); [discriminate| |]; rewrite blen_cons in S; lia. }
    rewrite (eip2718_encode_spec t true W) by (auto; lia). destruct (tx_typ t); [discriminate| |]; reflexivity.
Qed.

Lemma to_item_inj a b : wf_to a -> wf_to b -> to_item a = to_item b -> a = b.
Proof.
  destruct a as [a|], b as [b|]; cbn [to_item wf_to]; intros Ha Hb H; try injection H as H; subst; auto.
  - destruct Ha as [Ha _]. discriminate Ha.
  - destruct Hb as [Hb _]. discriminate Hb.
Qed.

Lemma access_item_inj a b : access_item a = access_item b -> a = b.
Proof.
  destruct a as [a ka], b as [b kb]. unfold access_item. cbn. intros [= -> H]. f_equal.
  revert kb H. induction ka as [|x t IH]; intros [|y kb] H; try discriminate; auto. injection H as -> H. f_equal. auto.
Qed.

Lemma map_access_inj a b : map access_item a = map access_item b -> a = b.
Proof.
  revert b. induction a as [|x t IH]; intros [|y b] H; try discriminate; auto.
  cbn [map] in H. injection H as Hx H. f_equal; [apply access_item_inj; unfold access_item; congruence|auto].
Qed.

Lemma Num_inj a b : Num a = Num b -> a = b.
Proof. intros [= H]. now apply BE_inj. Qed.

Lemma wf_num n : item_wf (Num n).
Proof. apply BE_wf. Qed.

Lemma wf_to_item to : wf_to to -> item_wf (to_item to).
Proof. destruct to; cbn; [tauto|constructor]. Qed.

Lemma wf_al al : Forall wf_entry al -> item_wf (Lst (map access_item al)).
Proof.
  intros H. apply item_wf_lst. rewrite Forall_map. eapply Forall_impl; [|exact H].
  intros e (_ & W & K). apply item_wf_lst. repeat constructor; [exact W|].
  apply item_wf_lst. rewrite Forall_map. eapply Forall_impl; [|exact K]. cbn. tauto.
Qed.

Lemma wf_unsigned t : wf_tx t -> Forall item_wf (unsigned_fields t).
Proof.
  intros (Wn & Wp & Wf & Wg & Wto & Wval & Wd & Wc & Wr & Ws & Wal).
  pose proof (wf_to_item _ Wto). pose proof (wf_al _ Wal).
  unfold unsigned_fields. destruct (tx_typ t); repeat constructor; auto using wf_num.
Qed.

Lemma wf_signing t : wf_tx t -> item_wf (spec_signing_item t).
Proof.
  intros W. apply item_wf_lst. pose proof (wf_unsigned t W) as H. unfold signing_fields.
  destruct (tx_typ t); auto. destruct (tx_chain_id t); auto. apply Forall_app. split; auto.
  repeat constructor; apply wf_num.
Qed.

Lemma RLP_Lst_first l : exists x t, RLP (Lst l) = x :: t /\ 0xC0 <= x.
Proof.
  cbn [RLP]. unfold rlp_lst, hdr. destruct (_ <? _); cbn [app]; eexists; eexists; (split; [reflexivity|lia]).
Qed.

Lemma envelope_inj t1 t2 l1 l2 :
  item_ok (Lst l1) -> item_ok (Lst l2) -> envelope t1 (Lst l1) = envelope t2 (Lst l2) -> tx_typ t1 = tx_typ t2 /\ l1 = l2.
Proof.
  intros O1 O2. unfold envelope.
  destruct (RLP_Lst_first l1) as (x1 & y1 & E1 & H1), (RLP_Lst_first l2) as (x2 & y2 & E2 & H2).
  destruct (tx_typ t1), (tx_typ t2); intros H; try discriminate H;
    try (rewrite E1 in H; injection H as Hx _; lia);
    try (rewrite E2 in H; injection H as Hx _; lia);
    try injection H as H; (split; [reflexivity|]); assert (X : Lst l1 = Lst l2) by (apply RLP_inj; auto); congruence.
Qed.

Lemma signing_inj t1 t2 : wf_tx t1 -> wf_tx t2 -> small_signing t1 -> small_signing t2 ->
  encode_tx_gen t1 true false = encode_tx_gen t2 true false ->
  tx_typ t1 = tx_typ t2 /\ tx_nonce t1 = tx_nonce t2 /\ tx_max_fee t1 = tx_max_fee t2 /\
  tx_gas_limit t1 = tx_gas_limit t2 /\ tx_to t1 = tx_to t2 /\ tx_value t1 = tx_value t2 /\ tx_data t1 = tx_data t2 /\
  (tx_typ t1 = kLegacy -> tx_chain_id t1 = tx_chain_id t2) /\
  (tx_typ t1 <> kLegacy -> spec_chain_id t1 = spec_chain_id t2 /\ tx_access_list t1 = tx_access_list t2) /\
  (tx_typ t1 = kEip1559 -> tx_max_priority_fee t1 = tx_max_priority_fee t2).
Proof.
  intros W1 W2 S1 S2. rewrite !signing_encoding by assumption. intros H.
  pose proof (wf_signing t1 W1) as I1. pose proof (wf_signing t2 W2) as I2.
  unfold small_signing in *.
  apply envelope_inj in H as [ET H].
  2: { apply item_ok_of_size; [exact I1|]. unfold envelope, spec_signing_item in *. destruct (tx_typ t1); rewrite ?blen_cons in S1; lia. }
  2: { apply item_ok_of_size; [exact I2|]. unfold envelope, spec_signing_item in *. destruct (tx_typ t2); rewrite ?blen_cons in S2; lia. }
  destruct W1 as (_ & _ & _ & _ & Wto1 & _), W2 as (_ & _ & _ & _ & Wto2 & _).
  unfold signing_fields, unsigned_fields in H. rewrite <- ET in H. split; [exact ET|].
  pose proof (to_item_inj _ _ Wto1 Wto2) as TI.
  destruct (tx_typ t1).
  - destruct (tx_chain_id t1) as [c1|] eqn:C1, (tx_chain_id t2) as [c2|] eqn:C2; cbn [app] in H; try discriminate H.
    + injection H as Hn Hf Hg Hto Hv Hd Hc. 
      repeat split; auto using BE_inj; try congruence. intros _. f_equal. now apply BE_inj.
    + injection H as Hn Hf Hg Hto Hv Hd. repeat split; auto using BE_inj; congruence.
  - injection H as Hc Hn Hf Hg Hto Hv Hd Ha. repeat split; auto using BE_inj, map_access_inj; congruence.
  - injection H as Hc Hn Hp Hf Hg Hto Hv Hd Ha. repeat split; auto using BE_inj, map_access_inj; congruence.
Qed.

Lemma with_rest_default t : representable t -> with_rest t tx_default = no_sender t.
Proof.
  unfold representable, with_rest, no_sender. destruct (tx_typ t); cbn [is_legacy]; [intros (_ & -> & _)|intros _|intros _]; reflexivity.
Qed.

Lemma decode_tx_roundtrip t r : wf_tx t -> representable t -> small_tx t ->
  decode_tx (encode_tx t ++ r) = Ok (no_sender t, r).
Proof. intros W R S. unfold decode_tx. rewrite decode_tx_rt' by assumption. now rewrite with_rest_default. Qed.

Lemma encode_tx_inj t1 t2 r1 r2 : wf_tx t1 -> wf_tx t2 -> representable t1 -> representable t2 -> small_tx t1 -> small_tx t2 ->
  encode_tx t1 ++ r1 = encode_tx t2 ++ r2 -> no_sender t1 = no_sender t2 /\ r1 = r2.
Proof.
  intros W1 W2 R1 R2 S1 S2 H. pose proof (decode_tx_roundtrip t1 r1 W1 R1 S1) as D.
  rewrite H, decode_tx_roundtrip in D by assumption. split; congruence.
Qed.
