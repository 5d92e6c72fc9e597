(** Proofs about the block header and body codec. *)
From Verif Require Import Base BaseFacts RlpSpec RlpModel RlpProofs EcdsaModel TxModel TxSpec TxProofs TxProofs2 TxProofs3 TxProofs4.
From Verif Require Import BlockModel BlockSpec.

Definition fixed (n : N) (b : bytes) : Prop := blen b = n /\ wf_bytes b.

Lemma encF n b : 1 < n -> n < 56 -> fixed n b -> encode_fixed b = RLP (Str b).
Proof. intros H1 H2 [Hb _]. cbn [RLP]. apply encode_fixed_spec; lia. Qed.
Lemma lenF n b : 1 < n -> n < 56 -> fixed n b -> n + 1 = blen (RLP (Str b)).
Proof. intros H1 H2 H. rewrite <- (encF n) by assumption. destruct H as [H _]. unfold encode_fixed. rewrite blen_cons. lia. Qed.
Lemma dF n b r : n < 2 ^ 64 -> fixed n b -> decode_fixed n (RLP (Str b) ++ r) = Ok (b, r).
Proof. intros H [Hb _]. subst n. apply decode_fixed_rt. lia. Qed.
Lemma iF n b s r : view b -> decode_fixed n b = Ok (s, r) -> b = RLP (Str s) ++ r /\ fixed n s /\ view r.
Proof.
  intros V H. apply decode_fixed_canon in H as (E & Hl & W & _); [|exact (view_wf _ V)].
  rewrite E in V. apply view_app in V as [_ V]. unfold fixed. auto.
Qed.

Lemma lenBloom b : fixed 256 b -> 256 + length_of_length 256 = blen (RLP (Str b)).
Proof. intros [H _]. rewrite <- lenB by lia. unfold length_bytes. rewrite H. 
  destruct b as [|x [|y t]]; try discriminate H. reflexivity. Qed.

(** ** Headers *)
Section Header.
  Variables (h : block_header) (for_sealing : bool).
  Hypothesis W : wf_header h.
  Hypothesis B : blen (RLP (Lst (header_fields h (negb for_sealing)))) < 2 ^ 64.

  Lemma hdr_extra : blen (hd_extra_data h) < 2 ^ 64.
  Proof.
    apply small_lst in B. apply small_str. eapply small_in; [exact B|]. unfold header_fields. cbn. tauto.
  Qed.

  Lemma hdr_payload : h_payload_length (hdr_rlp_header h for_sealing) = blen (concat (map RLP (header_fields h (negb for_sealing)))).
  Proof.
    pose proof hdr_extra as X. unfold hdr_rlp_header. cbn [h_payload_length].
    destruct W as (W1 & W2 & W3 & W4 & W5 & W6 & W7 & W8 & W9 & W10 & W11 & W12 & W13 & W14 & W15 & W16).
    rewrite (len256 _ W8), (len64 _ W9), (len64 _ W10), (len64 _ W11), (len64 _ W12), (lenB _ X), (lenBloom _ W7).
    unfold header_fields, seal_fields. rewrite !map_app, !concat_app, !blen_app. cbn [map concat]. rewrite !blen_app, blen_nil.
    rewrite <- (lenF 32 (hd_parent_hash h)), <- (lenF 32 (hd_ommers_hash h)), <- (lenF 20 (hd_beneficiary h)),
      <- (lenF 32 (hd_state_root h)), <- (lenF 32 (hd_transactions_root h)), <- (lenF 32 (hd_receipts_root h)) by (assumption || lia).
    assert (E1 : blen (concat (map RLP (if negb for_sealing then [Str (hd_mix_hash h); Str (hd_nonce h)] else []))) =
                 if negb for_sealing then 32 + 1 + (8 + 1) else 0).
    { destruct (negb for_sealing); [|reflexivity]. cbn [map concat]. rewrite !blen_app, blen_nil.
      rewrite <- (lenF 32 (hd_mix_hash h)), <- (lenF 8 (hd_nonce h)) by (assumption || lia). lia. }
    assert (E2 : blen (concat (map RLP match hd_base_fee h with Some f => [Num f] | None => [] end)) =
                 match hd_base_fee h with Some f => length_u256 f | None => 0 end).
    { destruct (hd_base_fee h) as [f|]; [|reflexivity]. rewrite (len256 _ W16). cbn [map concat]. rewrite app_nil_r. reflexivity. }
    rewrite E1, E2. lia.
  Qed.

  Lemma hdr_payload_small : h_payload_length (hdr_rlp_header h for_sealing) < 2 ^ 64.
  Proof. rewrite hdr_payload. now apply small_lst. Qed.

  Lemma encode_hdr_spec : encode_hdr h for_sealing = RLP (Lst (header_fields h (negb for_sealing))).
  Proof.
    pose proof hdr_extra as X. unfold encode_hdr. rewrite encode_header_hdr by apply hdr_payload_small.
    unfold hdr_of. rewrite hdr_payload.
    destruct W as (W1 & W2 & W3 & W4 & W5 & W6 & W7 & W8 & W9 & W10 & W11 & W12 & W13 & W14 & W15 & W16).
    rewrite (enc256 _ W8), (enc64 _ W9), (enc64 _ W10), (enc64 _ W11), (enc64 _ W12), (encB _ X).
    rewrite (encF 32 _ ltac:(lia) ltac:(lia) W1), (encF 32 _ ltac:(lia) ltac:(lia) W2), (encF 20 _ ltac:(lia) ltac:(lia) W3),
      (encF 32 _ ltac:(lia) ltac:(lia) W4), (encF 32 _ ltac:(lia) ltac:(lia) W5), (encF 32 _ ltac:(lia) ltac:(lia) W6),
      (encF 32 _ ltac:(lia) ltac:(lia) W14), (encF 8 _ ltac:(lia) ltac:(lia) W15).
    rewrite encB by (destruct W7 as [-> _]; lia).
    unfold hdr_rlp_header. cbn [h_list]. cbn [RLP]. unfold rlp_lst. f_equal.
    unfold header_fields, seal_fields. rewrite !map_app, !concat_app. cbn [map concat app].
    rewrite <- ?app_assoc, ?app_nil_l. repeat f_equal.
    - destruct (negb for_sealing); cbn [map concat]; rewrite ?app_nil_r; reflexivity.
    - destruct (hd_base_fee h) as [f|]; [|reflexivity]. rewrite (enc256 _ W16). cbn [map concat]. now rewrite app_nil_r.
  Qed.
End Header.

Lemma length_hdr_spec h : wf_header h -> small_item (header_item h) -> length_hdr h = blen (RLP (header_item h)).
Proof.
  intros W S. unfold length_hdr. pose proof (hdr_payload_small h false W S) as P. revert P. rewrite (hdr_payload h false W S).
  intros P. unfold header_item. cbn [RLP negb]. unfold rlp_lst. rewrite blen_app, hdr_blen by exact P. reflexivity.
Qed.

Lemma decode_hdr_rt h r : wf_header h -> small_item (header_item h) ->
  decode_hdr (RLP (header_item h) ++ r) = Ok (h, r).
Proof.
  intros W S. pose proof (hdr_extra h false S) as X.
  destruct W as (W1 & W2 & W3 & W4 & W5 & W6 & W7 & W8 & W9 & W10 & W11 & W12 & W13 & W14 & W15 & W16).
  unfold decode_hdr, header_item. cbn [RLP]. rewrite decode_list_header by now apply small_lst.
  cbn [bind h_list h_payload_length negb]. set (L := blen _ - _).
  assert (HL : L = blen r) by (unfold L; rewrite blen_app; lia). clearbody L. clear S.
  unfold header_fields, seal_fields. cbn [app].
  rewrite !payload_assoc.
  rewrite (dF 32 _ _ eq_refl W1). cbn [bind]. rewrite (dF 32 _ _ eq_refl W2). cbn [bind].
  rewrite (dF 20 _ _ eq_refl W3). cbn [bind]. rewrite (dF 32 _ _ eq_refl W4). cbn [bind].
  rewrite (dF 32 _ _ eq_refl W5). cbn [bind]. rewrite (dF 32 _ _ eq_refl W6). cbn [bind].
  rewrite (dF 256 _ _ eq_refl W7). cbn [bind]. rewrite (d256 _ _ W8). cbn [bind].
  rewrite (d64 _ _ W9). cbn [bind]. rewrite (d64 _ _ W10). cbn [bind]. rewrite (d64 _ _ W11). cbn [bind].
  rewrite (d64 _ _ W12). cbn [bind]. rewrite (dB _ _ X). cbn [bind].
  rewrite (dF 32 _ _ eq_refl W14). cbn [bind]. rewrite (dF 8 _ _ eq_refl W15). cbn [bind].
  destruct h as [? ? ? ? ? ? ? ? ? ? ? ? ? ? ? bf]. cbn [hd_base_fee] in *. subst L.
  destruct bf as [f|].
  - rewrite payload_assoc. cbn [map concat app].
    assert (Hne : blen r < blen (RLP (Num f) ++ r)).
    { rewrite blen_app. pose proof (RLP_ne (Num f)). destruct (RLP (Num f)); [congruence|]. rewrite blen_cons. lia. }
    destruct (N.ltb_spec (blen r) (blen (RLP (Num f) ++ r))); [|lia].
    rewrite (d256 _ _ W16). cbn [bind]. now rewrite N.eqb_refl.
  - cbn [map concat app]. rewrite N.ltb_irrefl. cbn [bind]. now rewrite N.eqb_refl.
Qed.

Lemma decode_hdr_inv b h r : view b -> decode_hdr b = Ok (h, r) ->
  wf_header h /\ b = RLP (header_item h) ++ r /\ view r.
Proof.
  intros V. unfold decode_hdr.
  destruct (decode_header b) as [[[l n] f]| | |] eqn:E; cbn [bind h_list h_payload_length]; try discriminate.
  destruct l; cbn [negb]; [|discriminate].
  apply decode_list_header_inv in E as (p & r' & -> & Hp & H64 & -> & Wp & Wr'); [|exact (view_wf _ V)].
  assert (Vp : view (p ++ r')).
  { destruct V as [Wv Lv]. split; [now apply wf_app|]. unfold rlp_lst in Lv. rewrite !blen_app in *. lia. }
  set (L := blen (p ++ r') - n). assert (HL : L = blen r') by (unfold L; rewrite blen_app; lia). clearbody L.
  remember (p ++ r') as q eqn:Eq. clear V.
  destruct (decode_fixed 32 q) as [[x1 f1]| | |] eqn:E1; cbn [bind]; try discriminate.
  apply iF in E1 as (E1 & W1 & V1); [|exact Vp].
  destruct (decode_fixed 32 f1) as [[x2 f2]| | |] eqn:E2; cbn [bind]; try discriminate.
  apply iF in E2 as (-> & W2 & V2); [|exact V1].
  destruct (decode_fixed 20 f2) as [[x3 f3]| | |] eqn:E3; cbn [bind]; try discriminate.
  apply iF in E3 as (-> & W3 & V3); [|exact V2].
  destruct (decode_fixed 32 f3) as [[x4 f4]| | |] eqn:E4; cbn [bind]; try discriminate.
  apply iF in E4 as (-> & W4 & V4); [|exact V3].
  destruct (decode_fixed 32 f4) as [[x5 f5]| | |] eqn:E5; cbn [bind]; try discriminate.
  apply iF in E5 as (-> & W5 & V5); [|exact V4].
  destruct (decode_fixed 32 f5) as [[x6 f6]| | |] eqn:E6; cbn [bind]; try discriminate.
  apply iF in E6 as (-> & W6 & V6); [|exact V5].
  destruct (decode_fixed 256 f6) as [[x7 f7]| | |] eqn:E7; cbn [bind]; try discriminate.
  apply iF in E7 as (-> & W7 & V7); [|exact V6].
  destruct (decode_u256 f7) as [[x8 f8]| | |] eqn:E8; cbn [bind]; try discriminate.
  apply i256 in E8 as (-> & W8 & V8); [|exact V7].
  destruct (decode_u64 f8) as [[x9 f9]| | |] eqn:E9; cbn [bind]; try discriminate.
  apply i64 in E9 as (-> & W9 & V9); [|exact V8].
  destruct (decode_u64 f9) as [[x10 f10]| | |] eqn:E10; cbn [bind]; try discriminate.
  apply i64 in E10 as (-> & W10 & V10); [|exact V9].
  destruct (decode_u64 f10) as [[x11 f11]| | |] eqn:E11; cbn [bind]; try discriminate.
  apply i64 in E11 as (-> & W11 & V11); [|exact V10].
  destruct (decode_u64 f11) as [[x12 f12]| | |] eqn:E12; cbn [bind]; try discriminate.
  apply i64 in E12 as (-> & W12 & V12); [|exact V11].
  destruct (decode_bytes f12) as [[x13 f13]| | |] eqn:E13; cbn [bind]; try discriminate.
  apply iB in E13 as (-> & W13 & V13); [|exact V12].
  destruct (decode_fixed 32 f13) as [[x14 f14]| | |] eqn:E14; cbn [bind]; try discriminate.
  apply iF in E14 as (-> & W14 & V14); [|exact V13].
  destruct (decode_fixed 8 f14) as [[x15 f15]| | |] eqn:E15; cbn [bind]; try discriminate.
  apply iF in E15 as (-> & W15 & V15); [|exact V14].
  match goal with |- (let* '(_, _) := ?e in _) = _ -> _ => destruct e as [[bf f16]| | |] eqn:E16 end; cbn [bind]; try discriminate.
  assert (HF : f15 = concat (map RLP match bf with Some f => [Num f] | None => [] end) ++ f16 /\
               match bf with Some f => u256 f | None => True end /\ view f16).
  { destruct (L <? blen f15).
    - destruct (decode_u256 f15) as [[x f]| | |] eqn:E17; cbn [bind] in E16; try discriminate.
      injection E16 as <- <-. apply i256 in E17 as (-> & U & V16); [|exact V15]. cbn [map concat]. rewrite app_nil_r. auto.
    - injection E16 as <- <-. auto. }
  destruct HF as (-> & U & V16). clear E16.
  destruct (N.eqb_spec (blen f16) L) as [Hlen|]; [|discriminate]. intros [= <- <-].
  unfold fixed in *. split; [repeat split; tauto|]. split; [|exact V16].
  assert (E : p ++ r' = concat (map RLP (header_fields (mkHdr x1 x2 x3 x4 x5 x6 x7 x8 x9 x10 x11 x12 x13 x14 x15 bf) true)) ++ f16).
  { rewrite <- Eq, E1. unfold header_fields, seal_fields. cbn [app]. rewrite !payload_assoc. reflexivity. }
  apply app_eq_length in E as [-> ->]; [reflexivity|].
  pose proof (f_equal blen E) as X. rewrite !blen_app in X. unfold blen in *. lia.
Qed.

Lemma decode_hdr_canon b h r : view b -> decode_hdr b = Ok (h, r) -> wf_header h /\ small_item (header_item h) /\ b = encode_hdr h false ++ r /\ view r.
Proof.
  intros V H. apply decode_hdr_inv in H as (W & -> & Vr); [|exact V].
  assert (S : small_item (header_item h)) by (destruct V as [_ V]; rewrite blen_app in V; unfold small_item; lia).
  split; [exact W|]. split; [exact S|]. split; [|exact Vr]. f_equal. symmetry. now apply encode_hdr_spec.
Qed.

Lemma decode_hdr_safe b : safe (decode_hdr b).
Proof.
  unfold decode_hdr. apply safe_bind; [apply decode_header_safe|]. intros [h f] _.
  destruct (negb (h_list h)); [apply safe_err|].
  repeat (apply safe_bind; [first [apply decode_fixed_safe|apply decode_uint_safe|apply decode_bytes_safe]|]; intros [? ?] _).
  apply safe_bind.
  - destruct (_ <? _); [|apply safe_ok]. apply safe_bind; [apply decode_uint_safe|]. intros [? ?] _. apply safe_ok.
  - intros [? ?] _. destruct (_ =? _); [apply safe_ok|apply safe_err].
Qed.

(** ** Bodies *)

(** Relational canonicity for vectors whose items may have several accepted forms. *)
Definition dec_rel {A} (R : A -> bytes -> Prop) (dec : bytes -> res (A * bytes)) : Prop :=
  forall b x r, view b -> dec b = Ok (x, r) -> exists e, R x e /\ e <> [] /\ b = e ++ r.

Lemma decode_items_rel {A} (R : A -> bytes -> Prop) (dec : bytes -> res (A * bytes)) fuel v xs :
  dec_rel R dec -> view v -> decode_items fuel dec v = Ok xs ->
  exists es, Forall2 R xs es /\ v = concat es.
Proof.
  intros Hc. revert v xs. induction fuel as [|fuel IH]; intros v xs W.
  - destruct v; cbn [decode_items]; [|discriminate]. intros [= <-]. exists []. split; [constructor|reflexivity].
  - destruct v as [|c t]; cbn [decode_items].
    + intros [= <-]. exists []. split; [constructor|reflexivity].
    + destruct (dec (c :: t)) as [[y v']| | |] eqn:E; cbn [bind]; try discriminate.
      apply Hc in E as (e & Hy & _ & E); [|exact W]. rewrite E in W. apply view_app in W as [_ W].
      destruct (decode_items fuel dec v') as [ys| | |] eqn:E2; cbn [bind]; try discriminate.
      intros [= <-]. apply IH in E2 as (es & Hys & ->); [|exact W].
      exists (e :: es). split; [now constructor|]. exact E.
Qed.

Lemma decode_vector_rel {A} (R : A -> bytes -> Prop) (dec : bytes -> res (A * bytes)) b xs r :
  dec_rel R dec -> view b -> decode_vector dec b = Ok (xs, r) ->
  exists es, Forall2 R xs es /\ b = rlp_lst (concat es) ++ r /\ view r.
Proof.
  intros Hc W. unfold decode_vector. destruct (decode_header b) as [[[l n] from]| | |] eqn:E; cbn [bind h_list]; try discriminate.
  destruct l; cbn [negb]; [|discriminate]. cbn [h_payload_length].
  apply decode_list_header_inv in E as (p & r' & -> & Hp & H64 & -> & Wp & Wr'); [|exact (view_wf _ W)].
  apply view_app in W as [_ W]. assert (Vp : view p) by (split; [exact Wp|lia]).
  rewrite <- Hp, substr0_app, remove_prefix_app.
  destruct (decode_items (length p) dec p) as [ys| | |] eqn:E; cbn [bind]; try discriminate.
  intros [= <- <-]. apply (decode_items_rel R) in E as (es & Hys & ->); eauto.
Qed.

Lemma decode_tx_form : dec_rel tx_form decode_tx.
Proof.
  intros b t r V H. pose proof (decode_tx_inv b t r V H) as (W & F & _). unfold tx_form.
  destruct (tx_typ t) eqn:ET.
  - apply decode_tx_canon_legacy in H as ->; auto. eexists. split; [split; [exact W|split; [exact F|reflexivity]]|].
    split; [|reflexivity]. unfold encode_tx, encode_tx_gen, legacy_encode, encode_header. rewrite ET. cbn [is_legacy].
    destruct (_ <? _); discriminate.
  - apply decode_tx_canon_typed in H as (n & Hn & -> & _); [|exact V|congruence]. rewrite ET. eexists.
    split; [|split; [apply RLP_ne|reflexivity]]. eauto.
  - apply decode_tx_canon_typed in H as (n & Hn & -> & _); [|exact V|congruence]. rewrite ET. eexists.
    split; [|split; [apply RLP_ne|reflexivity]]. eauto.
Qed.

Definition ok_header (h : block_header) : Prop := wf_header h /\ small_item (header_item h).

Lemma decode_hdr_dec_canon : dec_canon ok_header (fun h => encode_hdr h false) decode_hdr.
Proof.
  intros b h r V H. apply decode_hdr_canon in H as (W & S & E & _); [|exact V]. split; [split; assumption|exact E].
Qed.

Lemma RLP_items {A} (enc : A -> bytes) (toI : A -> item) l :
  Forall (fun x => enc x = RLP (toI x)) l -> concat (map enc l) = concat (map RLP (map toI l)).
Proof. rewrite map_map. intros H. f_equal. apply map_ext_Forall. exact H. Qed.

Lemma encode_hdr_items l : Forall ok_header l -> concat (map (fun h => encode_hdr h false) l) = concat (map RLP (map header_item l)).
Proof.
  intros H. apply RLP_items. eapply Forall_impl; [|exact H]. intros h [W S]. now apply encode_hdr_spec.
Qed.

(** A well-formed body: fields fit, every transaction representable. *)
Definition ok_tx (t : transaction) : Prop := wf_tx t /\ representable t /\ small_tx t.

Lemma tx_item_wire t : RLP (tx_item t) = wire_tx t.
Proof. unfold tx_item, wire_tx. destruct (tx_typ t); reflexivity. Qed.

Lemma encode_tx_items l : Forall ok_tx l -> concat (map encode_tx l) = concat (map RLP (map tx_item l)).
Proof.
  intros H. apply RLP_items. eapply Forall_impl; [|exact H]. intros t (W & R & S). rewrite tx_item_wire.
  apply encode_tx_is_wire; auto. now apply representable_v.
Qed.

Lemma small_of_tx_item t : blen (RLP (tx_item t)) < 2 ^ 64 -> small_tx t.
Proof.
  unfold tx_item, small_tx, envelope. destruct (tx_typ t); cbn [RLP]; [auto| |];
  intros H; eapply N.le_lt_trans; [apply rlp_str_blen_ge|exact H|apply rlp_str_blen_ge|exact H].
Qed.

Lemma small_elems l : blen (RLP (Lst l)) < 2 ^ 64 -> Forall (fun x => blen (RLP x) < 2 ^ 64) l.
Proof. intros H. apply small_lst in H. apply Forall_forall. intros x Hx. eapply small_in; eassumption. Qed.

Section Body.
  Variables (txs : list transaction) (oms : list block_header).
  Hypothesis Wt : Forall (fun t => wf_tx t /\ representable t) txs.
  Hypothesis Wo : Forall wf_header oms.
  Hypothesis St : blen (RLP (Lst (map tx_item txs))) < 2 ^ 64.
  Hypothesis So : blen (RLP (Lst (map header_item oms))) < 2 ^ 64.

  Lemma body_txs : Forall ok_tx txs.
  Proof.
    apply small_elems in St. rewrite Forall_map in St. rewrite Forall_forall in *. intros t Ht.
    destruct (Wt t Ht). split; [assumption|]. split; [assumption|]. apply small_of_tx_item. auto.
  Qed.
  Lemma body_oms : Forall ok_header oms.
  Proof.
    apply small_elems in So. rewrite Forall_map in So. rewrite Forall_forall in *. intros h Hh.
    split; auto. apply So. exact Hh.
  Qed.

  Lemma tx_len_in t : In t txs -> length_tx t = blen (encode_tx t).
  Proof.
    intros Ht. pose proof body_txs as H. rewrite Forall_forall in H. destruct (H t Ht) as (W & R & S).
    apply length_tx_exact; auto. now apply representable_v.
  Qed.
  Lemma tx_enc_in t : In t txs -> encode_tx t = RLP (tx_item t).
  Proof.
    intros Ht. pose proof body_txs as H. rewrite Forall_forall in H. destruct (H t Ht) as (W & R & S).
    rewrite tx_item_wire. apply encode_tx_is_wire; auto. now apply representable_v.
  Qed.
  Lemma om_len_in h : In h oms -> length_hdr h = blen (encode_hdr h false).
  Proof.
    intros Hh. pose proof body_oms as H. rewrite Forall_forall in H. destruct (H h Hh) as (W & S).
    rewrite length_hdr_spec by assumption. f_equal. symmetry. now apply encode_hdr_spec.
  Qed.
  Lemma om_enc_in h : In h oms -> encode_hdr h false = RLP (header_item h).
  Proof.
    intros Hh. pose proof body_oms as H. rewrite Forall_forall in H. destruct (H h Hh) as (W & S).
    now apply encode_hdr_spec.
  Qed.

  Lemma enc_txs : encode_vector length_tx encode_tx txs = RLP (Lst (map tx_item txs)).
  Proof.
    apply encode_vector_spec; [apply tx_len_in|apply tx_enc_in|].
    rewrite encode_tx_items by apply body_txs. now apply small_lst.
  Qed.
  Lemma enc_oms : encode_vector length_hdr (fun h => encode_hdr h false) oms = RLP (Lst (map header_item oms)).
  Proof.
    apply encode_vector_spec; [apply om_len_in|apply om_enc_in|].
    rewrite encode_hdr_items by apply body_oms. now apply small_lst.
  Qed.
  Lemma len_txs : length_vector length_tx txs = blen (RLP (Lst (map tx_item txs))).
  Proof.
    rewrite <- enc_txs. apply length_vector_spec; [apply tx_len_in|].
    rewrite encode_tx_items by apply body_txs. now apply small_lst.
  Qed.
  Lemma len_oms : length_vector length_hdr oms = blen (RLP (Lst (map header_item oms))).
  Proof.
    rewrite <- enc_oms. apply (length_vector_spec length_hdr (fun h => encode_hdr h false)); [apply om_len_in|].
    rewrite encode_hdr_items by apply body_oms. now apply small_lst.
  Qed.
  Lemma dec_txs r : decode_vector decode_tx (RLP (Lst (map tx_item txs)) ++ r) = Ok (map no_sender txs, r).
  Proof.
    pose proof body_txs as H. pose proof St as S. apply small_lst in S. cbn [RLP].
    assert (E : map RLP (map tx_item txs) = map encode_tx (map no_sender txs)).
    { rewrite !map_map. apply map_ext_Forall. eapply Forall_impl; [|exact H]. intros t (W & R & S1).
      rewrite tx_item_wire, <- encode_tx_is_wire; auto using representable_v. }
    rewrite E in *. apply (decode_vector_rt (fun t => ok_tx t /\ tx_from t = None)).
    - intros t r' [(W & R & S1) F]. rewrite decode_tx_roundtrip by assumption. repeat f_equal. destruct t. cbn in F. subst. reflexivity.
    - intros t [(W & R & S1) F]. rewrite encode_tx_is_wire by auto using representable_v. rewrite <- tx_item_wire. apply RLP_ne.
    - rewrite Forall_map. eapply Forall_impl; [|exact H]. intros t K. split; [exact K|reflexivity].
    - exact S.
  Qed.
  Lemma dec_oms r : decode_vector decode_hdr (RLP (Lst (map header_item oms)) ++ r) = Ok (oms, r).
  Proof.
    pose proof body_oms as H. pose proof So as S. apply small_lst in S. cbn [RLP]. rewrite map_map in *.
    apply (decode_vector_rt ok_header (fun h => RLP (header_item h))).
    - intros h r' [W S1]. now apply decode_hdr_rt.
    - intros h _. apply RLP_ne.
    - exact H.
    - exact S.
  Qed.
End Body.

Lemma small_body b : small_item (body_item b) ->
  blen (RLP (Lst (map tx_item (bd_transactions b)))) < 2 ^ 64 /\ blen (RLP (Lst (map header_item (bd_ommers b)))) < 2 ^ 64.
Proof. intros S. apply small_elems in S. inversion S as [|? ? S1 S2]; subst. inversion S2; subst. auto. Qed.

Lemma encode_body_spec b : wf_body b -> small_item (body_item b) -> encode_body b = RLP (body_item b).
Proof.
  intros [Wt Wo] S. pose proof (small_body b S) as [S1 S2]. unfold encode_body.
  rewrite len_txs, len_oms, enc_txs, enc_oms by assumption.
  assert (E : blen (RLP (Lst (map tx_item (bd_transactions b)))) + blen (RLP (Lst (map header_item (bd_ommers b)))) =
    blen (concat (map RLP [Lst (map tx_item (bd_transactions b)); Lst (map header_item (bd_ommers b))]))).
  { rewrite !blen_concat_cons. cbn [map concat]. rewrite blen_nil. lia. }
  rewrite E. rewrite encode_header_hdr by (cbn [h_payload_length]; apply small_lst; exact S).
  unfold body_item. cbn [RLP map concat]. unfold rlp_lst at 3. unfold hdr_of. cbn [h_list h_payload_length]. now rewrite app_nil_r.
Qed.

Lemma decode_body_rt b r : wf_body b -> small_item (body_item b) ->
  decode_body (encode_body b ++ r) = Ok (mkBody (map no_sender (bd_transactions b)) (bd_ommers b), r).
Proof.
  intros W S. rewrite encode_body_spec by assumption. destruct W as [Wt Wo]. pose proof (small_body b S) as [S1 S2].
  unfold decode_body, body_item. pose proof (small_lst _ S) as P.
  change (RLP (Lst ?l)) with (rlp_lst (concat (map RLP l))) at 1. rewrite decode_list_header by exact P.
  cbn [bind h_list h_payload_length negb]. set (L := blen _ - _).
  assert (HL : L = blen r) by (unfold L; rewrite blen_app; lia). clearbody L.
  rewrite !payload_assoc. cbn [map concat app]. rewrite dec_txs by assumption. cbn [bind].
  rewrite dec_oms by assumption. cbn [bind]. rewrite HL, N.eqb_refl. reflexivity.
Qed.

Lemma decode_body_inv b bd r : view b -> decode_body b = Ok (bd, r) ->
  Forall wf_header (bd_ommers bd) /\
  exists es, Forall2 tx_form (bd_transactions bd) es /\
    b = rlp_lst (rlp_lst (concat es) ++ RLP (Lst (map header_item (bd_ommers bd)))) ++ r.
Proof.
  intros V. unfold decode_body.
  destruct (decode_header b) as [[[l n] f]| | |] eqn:E; cbn [bind h_list h_payload_length]; try discriminate.
  destruct l; cbn [negb]; [|discriminate].
  apply decode_list_header_inv in E as (p & r' & -> & Hp & H64 & -> & Wp & Wr'); [|exact (view_wf _ V)].
  pose proof (view_lst _ _ V) as Vp.
  destruct (decode_vector decode_tx (p ++ r')) as [[txs f1]| | |] eqn:E1; cbn [bind]; try discriminate.
  apply (decode_vector_rel tx_form) in E1 as (es & Hes & E1 & V1); [|apply decode_tx_form|exact Vp].
  destruct (decode_vector decode_hdr f1) as [[oms f2]| | |] eqn:E2; cbn [bind]; try discriminate.
  apply (decode_vector_canon ok_header (fun h => encode_hdr h false)) in E2 as (Ho & -> & Hb & V2); [|apply decode_hdr_dec_canon|exact V1].
  destruct (N.eqb_spec (blen f2) (blen (p ++ r') - n)) as [El|]; [|discriminate]. intros [= <- <-].
  rewrite app_assoc in E1. apply list_frame in E1 as [-> ->]; [|rewrite blen_app in El; lia].
  cbn [bd_transactions bd_ommers]. split; [eapply Forall_impl; [|exact Ho]; now intros h [? _]|].
  exists es. split; [exact Hes|]. cbn [RLP]. now rewrite encode_hdr_items.
Qed.

Lemma decode_body_canon_legacy b bd r : view b -> decode_body b = Ok (bd, r) ->
  Forall (fun t => tx_typ t = kLegacy) (bd_transactions bd) ->
  b = rlp_lst (rlp_lst (concat (map encode_tx (bd_transactions bd))) ++ RLP (Lst (map header_item (bd_ommers bd)))) ++ r.
Proof.
  intros V H L. apply decode_body_inv in H as (_ & es & Hes & ->); [|exact V]. repeat f_equal.
  clear V. induction Hes as [|t e ts es H _ IH]; [reflexivity|]. inversion L; subst. cbn [map]. f_equal; auto.
  destruct H as (_ & _ & H). now rewrite H2 in H.
Qed.

(** Safety of body decoding: undefined behaviour can only come from a transaction. *)
Lemma sub_view_refl b : sub_view b b.
Proof. exists [], []. now rewrite app_nil_r. Qed.
Lemma sub_view_l p q : sub_view p (p ++ q).
Proof. exists [], q. reflexivity. Qed.
Lemma sub_view_r p q : sub_view q (p ++ q).
Proof. exists p, []. now rewrite app_nil_r. Qed.
Lemma sub_view_trans a b c : sub_view a b -> sub_view b c -> sub_view a c.
Proof.
  intros (p & r & ->) (p' & r' & ->). exists (p' ++ p), (r ++ r'). now rewrite <- !app_assoc.
Qed.

Lemma decode_items_guarded {A} (R : A -> bytes -> Prop) (dec : bytes -> res (A * bytes)) fuel v (P : Prop) :
  dec_rel R dec -> (forall q, view q -> sub_view q v -> guarded (dec q) P) -> view v -> (length v <= fuel)%nat ->
  guarded (decode_items fuel dec v) P.
Proof.
  intros HR. revert v. induction fuel as [|fuel IH]; intros v Hg V Hl.
  - destruct v; [apply guarded_ok|]. cbn in Hl. lia.
  - destruct v as [|c t]; [apply guarded_ok|]. cbn [decode_items].
    apply guarded_bind; [apply Hg; [exact V|apply sub_view_refl]|]. intros [y v] E.
    apply HR in E as (e & _ & Hne & E); [|exact V]. rewrite E in *.
    apply guarded_bind; [|intros; apply guarded_ok].
    apply IH.
    + intros q Vq Hq. apply Hg; [exact Vq|]. eapply sub_view_trans; [exact Hq|apply sub_view_r].
    + now apply view_app in V.
    + rewrite app_length in Hl. destruct e; [congruence|]. cbn [length] in Hl. lia.
Qed.

Lemma decode_vector_guarded {A} (R : A -> bytes -> Prop) (dec : bytes -> res (A * bytes)) v (P : Prop) :
  dec_rel R dec -> (forall q, view q -> sub_view q v -> guarded (dec q) P) -> view v -> guarded (decode_vector dec v) P.
Proof.
  intros HR Hg V. unfold decode_vector. apply guarded_bind; [apply guarded_safe, decode_header_safe|].
  intros [[l n] f] E. cbn [h_list h_payload_length]. destruct l; cbn [negb]; [|apply guarded_err].
  apply decode_list_header_inv in E as (p & r' & -> & Hp & H64 & -> & Wp & Wr'); [|exact (view_wf _ V)].
  assert (Vp : view p) by (split; [exact Wp|lia]).
  rewrite <- Hp, substr0_app, remove_prefix_app. apply guarded_bind; [|intros; apply guarded_ok].
  eapply decode_items_guarded; eauto. intros q Vq Hq. apply Hg; [exact Vq|].
  eapply sub_view_trans; [exact Hq|]. unfold rlp_lst. rewrite <- app_assoc.
  eapply sub_view_trans; [apply sub_view_l|apply sub_view_r].
Qed.

Lemma decode_hdr_rel : dec_rel (fun h e => e = encode_hdr h false) decode_hdr.
Proof.
  intros b h r V H. apply decode_hdr_canon in H as (W & S & E & _); [|exact V]. eexists. split; [reflexivity|].
  split; [|exact E]. rewrite encode_hdr_spec by assumption. apply RLP_ne.
Qed.

Lemma decode_body_guarded b : view b -> guarded (decode_body b) (exists q, sub_view q b /\ truncated_at_to q).
Proof.
  intros V. unfold decode_body. apply guarded_bind; [apply guarded_safe, decode_header_safe|].
  intros [[l n] f] E. cbn [h_list h_payload_length]. destruct l; cbn [negb]; [|apply guarded_err].
  apply decode_list_header_inv in E as (p & r' & -> & Hp & H64 & -> & Wp & Wr'); [|exact (view_wf _ V)].
  pose proof (view_lst _ _ V) as Vp.
  apply guarded_bind.
  { eapply decode_vector_guarded; [apply decode_tx_form| |exact Vp]. intros q Vq Hq.
    eapply guarded_impl; [|apply decode_tx_guarded; exact Vq]. intros T. exists q. split; [|exact T].
    eapply sub_view_trans; [exact Hq|]. unfold rlp_lst. rewrite <- app_assoc. apply sub_view_r. }
  intros [txs f1] E1. apply (decode_vector_rel tx_form) in E1 as (es & Hes & E1 & V1); [|apply decode_tx_form|exact Vp].
  apply guarded_bind.
  { eapply decode_vector_guarded; [apply decode_hdr_rel| |exact V1]. intros q Vq Hq. apply guarded_safe, decode_hdr_safe. }
  intros [oms f2] _. destruct (_ =? _); [apply guarded_ok|apply guarded_err].
Qed.

(** Injectivity of the header hash preimage. *)
Lemma wf_header_item h s : wf_header h -> Forall item_wf (header_fields h s).
Proof.
  intros W. destruct W as ((_ & W1) & (_ & W2) & (_ & W3) & (_ & W4) & (_ & W5) & (_ & W6) & (_ & W7) & _ & _ & _ & _ & _ & W13 & (_ & W14) & (_ & W15) & _).
  unfold header_fields, seal_fields. apply Forall_app. split; [repeat constructor; auto using wf_num|].
  apply Forall_app. split; [destruct s; repeat constructor; auto|]. destruct (hd_base_fee h); repeat constructor; apply wf_num.
Qed.

Lemma encode_hdr_inj h1 h2 r1 r2 : wf_header h1 -> wf_header h2 -> small_item (header_item h1) -> small_item (header_item h2) ->
  encode_hdr h1 false ++ r1 = encode_hdr h2 false ++ r2 -> h1 = h2 /\ r1 = r2.
Proof.
  intros W1 W2 S1 S2 H. rewrite !encode_hdr_spec in H by assumption.
  pose proof (decode_hdr_rt h1 r1 W1 S1) as D1. pose proof (decode_hdr_rt h2 r2 W2 S2) as D2.
  unfold header_item in *. cbn [negb] in *. rewrite H in D1. split; congruence.
Qed.

(** ** Whole blocks (only decoding exists in the code) *)
Lemma decode_block_rt b r : wf_block b -> small_item (block_item b) ->
  decode_block (RLP (block_item b) ++ r) = Ok (mkBlock (bk_header b) (map no_sender (bk_transactions b)) (bk_ommers b), r).
Proof.
  intros (Wh & Wt & Wo) S. pose proof (small_elems _ S) as E.
  inversion E as [|? ? S0 E1]; subst. inversion E1 as [|? ? S1 E2]; subst. inversion E2 as [|? ? S2 _]; subst.
  unfold decode_block, block_item. pose proof (small_lst _ S) as P.
  change (RLP (Lst ?l)) with (rlp_lst (concat (map RLP l))) at 1. rewrite decode_list_header by exact P.
  cbn [bind h_list h_payload_length negb]. set (L := blen _ - _).
  assert (HL : L = blen r) by (unfold L; rewrite blen_app; lia). clearbody L.
  rewrite !payload_assoc. cbn [map concat app]. rewrite decode_hdr_rt by assumption. cbn [bind].
  rewrite dec_txs by assumption. cbn [bind]. rewrite dec_oms by assumption. cbn [bind]. rewrite HL, N.eqb_refl. reflexivity.
Qed.

Lemma decode_block_guarded b : view b -> guarded (decode_block b) (exists q, sub_view q b /\ truncated_at_to q).
Proof.
  intros V. unfold decode_block. apply guarded_bind; [apply guarded_safe, decode_header_safe|].
  intros [[l n] f] E. cbn [h_list h_payload_length]. destruct l; cbn [negb]; [|apply guarded_err].
  apply decode_list_header_inv in E as (p & r' & -> & Hp & H64 & -> & Wp & Wr'); [|exact (view_wf _ V)].
  pose proof (view_lst _ _ V) as Vp.
  apply guarded_bind; [apply guarded_safe, decode_hdr_safe|]. intros [h f0] E0.
  apply decode_hdr_inv in E0 as (Wh & E0 & V0); [|exact Vp].
  apply guarded_bind.
  { eapply decode_vector_guarded; [apply decode_tx_form| |exact V0]. intros q Vq Hq.
    eapply guarded_impl; [|apply decode_tx_guarded; exact Vq]. intros T. exists q. split; [|exact T].
    eapply sub_view_trans; [exact Hq|]. unfold rlp_lst. rewrite <- app_assoc, E0.
    eapply sub_view_trans; apply sub_view_r. }
  intros [txs f1] E1. apply (decode_vector_rel tx_form) in E1 as (es & Hes & E1 & V1); [|apply decode_tx_form|exact V0].
  apply guarded_bind.
  { eapply decode_vector_guarded; [apply decode_hdr_rel| |exact V1]. intros q Vq Hq. apply guarded_safe, decode_hdr_safe. }
  intros [oms f2] _. destruct (_ =? _); [apply guarded_ok|apply guarded_err].
Qed.
