From Verif Require Import Base BaseFacts RlpSpec RlpModel RlpProofs EcdsaModel TxModel BlockModel BlockSpec BlockProofs CodecLemmas ChainModel ChainSpec ChainProofs ChainProofs2.

Lemma verdict_app_ok a b r : verdict a kOk -> (forall P e, In (Rule P e) a -> e <> kOk) -> verdict b r -> verdict (a ++ b) r.
Proof.
  intros H Hn Hb. apply verdict_ok_iff in H; [|exact Hn]. induction a as [|[P e] a IH]; [exact Hb|]. inversion H; subst. cbn. apply verdict_next; [assumption|].
  apply IH; [assumption|]. intros Q e' Hi. apply (Hn Q). now right.
Qed.
Lemma verdict_app_bad a b r : verdict a r -> r <> kOk -> verdict (a ++ b) r.
Proof. induction 1; intros Hr; cbn; [congruence|now apply verdict_bad|apply verdict_next; auto]. Qed.

Lemma header_rules_not_ok c seal h p P e : In (Rule P e) (header_rules c seal h p) -> e <> kOk.
Proof.
  unfold header_rules, header_rules_no_parent, header_rules_parent. destruct p; cbn; intros Hx; decompose [or] Hx; try contradiction;
    match goal with H : Rule _ _ = Rule _ _ |- _ => injection H as _ <- end; discriminate.
Qed.
Lemma tx_rules_not_ok c n bf t P e : In (Rule P e) (tx_rules c n bf t) -> e <> kOk.
Proof.
  unfold tx_rules. cbn; intros Hx; decompose [or] Hx; try contradiction; match goal with H : Rule _ _ = Rule _ _ |- _ => injection H as _ <- end; discriminate.
Qed.

Section Block.
  Variable keccak : bytes -> bytes.
  Variable verify_full : N -> bytes -> bytes -> N -> N -> bool.
  Variable txn_root : list transaction -> bytes.
  Notation seal := (seal_ok keccak verify_full).

  Definition parent_ok (c : chain_config) (st : chain_reader) (h : block_header) : Prop :=
    forall p, get_parent st h = Some p -> child_ok c h p.

  Lemma header_verdict_ok h st c : cfg_ok c -> parent_ok c st h ->
    (validate_block_header keccak verify_full h st c = Some kOk <-> all_hold (header_rules c seal h (get_parent st h))).
  Proof.
    intros Hc Hp. destruct (validate_header_verdict keccak verify_full h st c Hc Hp) as (r & E & Hv). rewrite E.
    unfold all_hold. rewrite <- verdict_ok_iff by (intros; eapply header_rules_not_ok; eassumption). split; [intros [= ->]; exact Hv|].
    intros H. f_equal. eapply verdict_det; eassumption.
  Qed.

  Lemma check_ommers_verdict oms h p st c : cfg_ok c -> Forall (parent_ok c st) oms ->
    exists r, check_ommers keccak verify_full oms h p st c = Some r /\ verdict (concat (map (ommer_rules c seal st h p) oms)) r.
  Proof.
    intros Hc. induction oms as [|o t IH]; intros Hp; cbn [check_ommers map concat]; [exists kOk; split; [reflexivity|constructor]|].
    inversion Hp as [|? ? Ho Ht]; subst. specialize (IH Ht). destruct (validate_header_verdict keccak verify_full o st c Hc Ho) as (r & E & Hv).
    pose proof (header_verdict_ok o st c Hc Ho) as HO. rewrite E in HO |- *. unfold ommer_rules at 1. cbn [app].
    destruct r; try (eexists; split; [reflexivity|]; apply verdict_bad; intros Ha; apply HO in Ha; discriminate).
    pose proof (proj1 HO eq_refl) as Ha. pose proof (ommer_check_iff st h p o) as HK.
    destruct (is_kin o p (hd_parent_hash h) 6 st []) as [kin old] eqn:Ek. destruct kin; cbn [negb andb] in *.
    - assert (K : exists i old, (i <= 6)%nat /\ kin_at st o p (hd_parent_hash h) i old).
      { apply is_kin_true in Ek as (i & old' & Hi & _ & Hk). eauto. }
      destruct (existsb (fun oo => header_eqb oo o) old) eqn:Ed; cbn [negb] in HK.
      + eexists. split; [reflexivity|]. apply verdict_next; [exact Ha|]. apply verdict_next; [exact K|]. apply verdict_bad. intros H. apply HK in H. discriminate.
      + destruct IH as (r & Er & Hr). exists r. split; [exact Er|]. apply verdict_next; [exact Ha|]. apply verdict_next; [exact K|]. apply verdict_next; [now apply HK|exact Hr].
    - eexists. split; [reflexivity|]. apply verdict_next; [exact Ha|]. apply verdict_bad. intros (i & old' & Hi & Hk).
      destruct (is_kin_complete _ _ _ _ _ _ Hk 6%nat [] Hi) as (j & o1 & rest & E1 & _). congruence.
  Qed.

  Lemma check_transactions_verdict txs n c bf : Forall (fun t => tx_sizes_ok t /\ sig_in_range c n t) txs ->
    verdict (concat (map (tx_rules c n bf) txs)) (check_transactions txs n c bf).
  Proof.
    induction txs as [|t r IH]; intros H; cbn [check_transactions map concat]; [constructor|]. inversion H as [|? ? [Hs Hg] Hr]; subst.
    pose proof (pre_validate_verdict t n c bf Hs Hg) as V. destruct (pre_validate_transaction t n c bf) eqn:E;
      try (apply verdict_app_bad; [exact V|discriminate]).
    apply verdict_app_ok; [exact V|intros; eapply tx_rules_not_ok; eassumption|now apply IH].
  Qed.

  Definition block_ok (c : chain_config) (st : chain_reader) (b : block) : Prop :=
    parent_ok c st (bk_header b) /\ Forall (parent_ok c st) (bk_ommers b) /\
    Forall wf_header (bk_ommers b) /\ blen (RLP (Lst (map header_item (bk_ommers b)))) < 2 ^ 64 /\
    Forall (fun t => tx_sizes_ok t /\ sig_in_range c (hd_number (bk_header b)) t) (bk_transactions b).

  Lemma pre_validate_block_verdict b st c : cfg_ok c -> block_ok c st b ->
    exists r, pre_validate_block keccak verify_full txn_root b st c = Some r /\ verdict (block_rules c seal keccak txn_root st b) r.
  Proof.
    intros Hc (Hp & Hop & Hwf & Hsz & Htx). unfold pre_validate_block, block_rules.
    destruct (validate_header_verdict keccak verify_full (bk_header b) st c Hc Hp) as (r & E & Hv). rewrite E.
    destruct r; try (eexists; split; [reflexivity|]; apply verdict_app_bad; [exact Hv|discriminate]).
    assert (Hpar : exists p, get_parent st (bk_header b) = Some p).
    { destruct (get_parent st (bk_header b)) as [p|]; [eauto|]. exfalso. unfold header_rules, header_rules_no_parent in Hv. cbn [app] in Hv.
      do 4 (inversion Hv as [| |? ? ? ? _ Hv' ]; subst; clear Hv; rename Hv' into Hv). inversion Hv; subst; tauto. }
    destruct Hpar as (p & Ep). rewrite Ep in *.
    pose proof (verdict_app_ok (header_rules c seal (bk_header b) (Some p))) as APP.
    assert (G : forall X rs, (exists r, X = Some r /\ verdict rs r) -> exists r, X = Some r /\ verdict (header_rules c seal (bk_header b) (Some p) ++ rs) r).
    { intros X rs (r & -> & Hr). exists r. split; [reflexivity|]. apply APP; [exact Hv|intros; eapply header_rules_not_ok; eassumption|exact Hr]. }
    apply G. clear APP G. cbn [app]. rewrite (enc_oms (bk_ommers b) Hwf Hsz).
    apply verdict_step_neg; [apply bytes_eqb_eq|intros _]. apply verdict_step_neg; [apply bytes_eqb_eq|intros _].
    apply verdict_step_o; [rewrite Nat.ltb_lt; lia|lia|intros Hlen].
    assert (Dup : match bk_ommers b with [a; c0] => header_eqb a c0 | _ => false end = true <-> ~ NoDup (bk_ommers b)).
    { destruct (bk_ommers b) as [|x [|y [|z l]]].
      - split; [discriminate|]. intros H. exfalso. apply H. constructor.
      - split; [discriminate|]. intros H. exfalso. apply H. repeat constructor. tauto.
      - rewrite header_eqb_eq. split; [intros ->; intros H; inversion H; subst; cbn in *; tauto|]. intros H.
        destruct (header_eqb x y) eqn:Exy; [now apply header_eqb_eq|]. exfalso. apply H. constructor; [|repeat constructor; tauto].
        intros [->|[]]. rewrite (proj2 (header_eqb_eq x x) eq_refl) in Exy. discriminate.
      - cbn in Hlen. lia. }
    apply verdict_step_o; [exact Dup| |intros Hnd].
    { destruct (match bk_ommers b with [a; c0] => header_eqb a c0 | _ => false end) eqn:Ed; [right; now apply Dup|left].
      destruct (bk_ommers b) as [|x [|y [|z l]]]; try (repeat constructor; tauto).
      - constructor; [|repeat constructor; tauto].
        intros [->|[]]. rewrite (proj2 (header_eqb_eq x x) eq_refl) in Ed. discriminate.
      - cbn in Hlen. lia. }
    destruct (check_ommers_verdict (bk_ommers b) (bk_header b) p st c Hc Hop) as (r & Er & Hr).
    assert (Eo : match bk_ommers b, Some p with _ :: _, None => None | oms, parent =>
       match check_ommers keccak verify_full oms (bk_header b) (match parent with Some p0 => p0 | None => bk_header b end) st c with
       | None => None | Some kOk => Some (check_transactions (bk_transactions b) (hd_number (bk_header b)) c (hd_base_fee (bk_header b))) | Some e => Some e end end
       = match r with kOk => Some (check_transactions (bk_transactions b) (hd_number (bk_header b)) c (hd_base_fee (bk_header b))) | e => Some e end).
    { destruct (bk_ommers b); rewrite Er; reflexivity. }
    rewrite Eo. pose proof (check_transactions_verdict _ _ c (hd_base_fee (bk_header b)) Htx) as T.
    assert (NO : forall P e, In (Rule P e) (concat (map (ommer_rules c seal st (bk_header b) p) (bk_ommers b))) -> e <> kOk).
    { intros P e Hi. apply in_concat in Hi as (l & Hl & Hi). apply in_map_iff in Hl as (o & <- & _). cbn in Hi. decompose [or] Hi; try contradiction;
        match goal with H : Rule _ _ = Rule _ _ |- _ => injection H as _ <- end; discriminate. }
    destruct r; eexists; (split; [reflexivity|]); try (apply verdict_app_bad; [exact Hr|discriminate]). now apply verdict_app_ok.
  Qed.
End Block.

(** ** Ranges that make the difficulty fit in 256 bits *)
Lemma spec_difficulty_fits c n dt pd un d : (0 <= dt)%Z -> (0 <= pd < 2 ^ 254)%Z -> n < 25000000 ->
  spec_difficulty c n dt pd un d -> (d < 2 ^ 256)%Z.
Proof.
  intros Hdt Hpd Hn H.
  assert (B : forall m, (0 <= m < 25000000)%Z -> (0 <= spec_bomb m <= 2 ^ 250)%Z).
  { intros m Hm. unfold spec_bomb. cbv zeta. destruct (Z.leb_spec 2 (m / 100000)); [|lia]. split; [apply Z.pow_nonneg; lia|]. apply Z.pow_le_mono_r; lia. }
  assert (G : forall f m, (-99 <= f <= 2)%Z -> (0 <= m < 25000000)%Z -> (spec_difficulty_of f m pd < 2 ^ 256)%Z).
  { intros f m Hf Hm. specialize (B m Hm). unfold spec_difficulty_of. set (x := (pd / 2048)%Z). assert (0 <= x <= pd)%Z by (unfold x; lia). clearbody x.
    assert (x * f <= 2 * pd)%Z by nia. set (xf := (x * f)%Z) in *. clearbody xf. lia. }
  destruct H as [delay _ Hd|_ _|_]; apply G; unfold spec_factor_byzantium, spec_factor_homestead, spec_factor_frontier, fake_number.
  - destruct un; lia.
  - destruct Hd; lia.
  - lia.
  - lia.
  - destruct (dt <? 13)%Z; lia.
  - lia.
Qed.

(** ** Concrete chain: P2 <- P1 <- block, with an ommer whose parent is P2. *)
Definition hash_of (n : N) : bytes := repeat n 32.
Definition w_header (number : N) (parent : bytes) (ts : N) (extra : bytes) (ommers_hash : bytes) : block_header :=
  mkHdr parent ommers_hash (repeat 3 20) (hash_of 4) (hash_of 5) (hash_of 6) (repeat 0 256) (2 ^ 40) number 8000000 21000 ts extra
        (hash_of 7) (repeat 8 8) None.
Definition w_p2 := w_header 98 (hash_of 0x97) 1000 [] kEmptyListHash.
Definition w_p1 := w_header 99 (hash_of 0x98) 1010 [] kEmptyListHash.
Definition w_ommer := w_header 99 (hash_of 0x98) 1011 [1] kEmptyListHash.
Definition w_tx : transaction := mkTx kLegacy 1 2 2 60000 (Some (repeat 1 20)) 4 [0; 5] false (Some 5) 6 7 [] None.
Definition w_block := mkBlock (w_header 100 (hash_of 0x99) 1020 [] (hash_of 9)) [w_tx] [w_ommer].
Definition w_reader : chain_reader := mkReader
  (fun n h => if (n =? 98) && bytes_eqb h (hash_of 0x98) then Some w_p2
              else if (n =? 99) && bytes_eqb h (hash_of 0x99) then Some w_p1 else None)
  (fun n h => if (n =? 99) && bytes_eqb h (hash_of 0x99) then Some (mkBody [] []) else None).
Definition w_keccak (b : bytes) : bytes := hash_of 9.
Definition w_verify (_ : N) (_ _ : bytes) (_ _ : N) : bool := true.
Definition w_root (_ : list transaction) : bytes := hash_of 5.

Lemma goerli_ok : cfg_ok kGoerliConfig.
Proof. repeat split; repeat constructor. Qed.

Lemma w_child h p : get_parent w_reader h = Some p -> hd_number h < 200 -> hd_timestamp p < hd_timestamp h -> u64 (hd_timestamp h) -> hd_difficulty h = 2 ^ 40 ->
  child_ok kGoerliConfig h p.
Proof.
  intros Hp Hn Ht Hu Hd. assert (P : p = w_p2 \/ p = w_p1).
  { unfold get_parent, w_reader in Hp. cbn [read_header] in Hp. destruct ((_ =? 98) && _); [left; congruence|]. destruct ((_ =? 99) && _); [right; congruence|discriminate]. }
  assert (R : ~ rules_from kGoerliConfig 9 (hd_number h)).
  { rewrite rules_from_rev by lia. intros H. apply N.le_lteq in H as [H|H].
    - pose proof (revision_activated kGoerliConfig (hd_number h)) as (b & Hb & Hbn). unfold activation in Hb. pose proof (revision_le kGoerliConfig (hd_number h)).
      replace (revision kGoerliConfig (hd_number h)) with 10 in Hb by lia. discriminate.
    - pose proof (revision_activated kGoerliConfig (hd_number h)) as (b & Hb & Hbn). rewrite <- H in Hb. injection Hb as <-. lia. }
  unfold child_ok. assert (hd_difficulty p = 2 ^ 40) as -> by (destruct P as [->| ->]; reflexivity).
  repeat split; try (unfold u64, u256; lia); try (destruct P as [->| ->]; cbn; lia); try tauto.
  - intros un d Hsd. eapply spec_difficulty_fits; [| | |exact Hsd]; lia.
  - discriminate.
Qed.

Lemma w_block_ok : block_ok kGoerliConfig w_reader w_block /\ pre_validate_block w_keccak w_verify w_root w_block w_reader kGoerliConfig = Some kOk.
Proof.
  split; [|vm_compute; reflexivity]. unfold block_ok. split.
  { intros p Hp. apply w_child; [exact Hp|reflexivity| |reflexivity|reflexivity]. vm_compute in Hp. injection Hp as <-. reflexivity. }
  split. { constructor; [|constructor]. intros p Hp. apply w_child; [exact Hp|reflexivity| |reflexivity|reflexivity]. vm_compute in Hp. injection Hp as <-. reflexivity. }
  split. { constructor; [|constructor]. repeat split; try reflexivity; wfb. }
  split; [reflexivity|]. constructor; [|constructor]. split; [repeat split|]. split; [reflexivity|right; reflexivity].
Qed.

(** The signature check lets r >= n through. *)
Definition bad_sig_tx : transaction := mkTx kLegacy 1 2 2 60000 (Some (repeat 1 20)) 4 [0; 5] false (Some 5) secp256k1_order 7 [] None.
Lemma bad_signature_accepted : pre_validate_transaction bad_sig_tx 100 kGoerliConfig None = kOk /\
  ~ spec_valid_signature true (tx_r bad_sig_tx) (tx_s bad_sig_tx) /\ ~ verdict (tx_rules kGoerliConfig 100 None bad_sig_tx) kOk.
Proof.
  split; [vm_compute; reflexivity|]. assert (N : forall hs, ~ spec_valid_signature hs (tx_r bad_sig_tx) (tx_s bad_sig_tx)).
  { intros hs ((_ & H) & _). cbn [tx_r bad_sig_tx] in H. lia. }
  split; [apply N|]. intros H. apply verdict_ok_iff in H; [|intros; eapply tx_rules_not_ok; eassumption]. unfold tx_rules in H. rewrite !Forall_cons_iff in H.
  destruct H as (_ & _ & _ & _ & Hs & _). apply signature_rule_iff in Hs. now apply N in Hs.
Qed.

(** Growing the data or the access list never lowers the intrinsic gas; the same transaction otherwise. *)
Definition tx_grow (t : transaction) (d : bytes) (al : list access_entry) : transaction :=
  mkTx (tx_typ t) (tx_nonce t) (tx_max_priority_fee t) (tx_max_fee t) (tx_gas_limit t) (tx_to t) (tx_value t) (tx_data t ++ d)
    (tx_odd_y_parity t) (tx_chain_id t) (tx_r t) (tx_s t) (tx_access_list t ++ al) (tx_from t).
Lemma intrinsic_gas_mono t d al hs ist : tx_sizes_ok (tx_grow t d al) -> intrinsic_gas t hs ist <= intrinsic_gas (tx_grow t d al) hs ist.
Proof.
  intros H. assert (Ht : tx_sizes_ok t).
  { destruct H as (A & B & C). unfold blen, tx_grow in *. cbn [tx_data tx_access_list] in *. rewrite ?map_app, ?sumN_app in C. rewrite app_length in A, B. unfold tx_sizes_ok, blen. lia. }
  rewrite (proj1 (intrinsic_gas_spec _ hs ist Ht)), (proj1 (intrinsic_gas_spec _ hs ist H)). unfold spec_intrinsic_gas, tx_grow. cbn [tx_data tx_access_list tx_to].
  rewrite !map_app, !sumN_app. lia.
Qed.
