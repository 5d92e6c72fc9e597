From Verif Require Import Base BaseFacts RlpSpec RlpModel RlpProofs EcdsaModel TxModel BlockModel BlockSpec BlockProofs ChainModel ChainSpec ChainProofs.

(** ** Base fee *)
Lemma next_fee_bounds fee used limit : 2 <= limit -> used <= limit ->
  let t := limit / 2 in let f := spec_next_base_fee fee used limit in
  (used = t -> f = fee) /\ (t < used -> fee < f <= fee + N.max 1 (fee * (t + 1) / t / 8)) /\ (used < t -> f <= fee <= f + fee / 8).
Proof.
  intros Hl Hu t f. unfold f, spec_next_base_fee. fold t. assert (Ht : 0 < t) by (unfold t; lia).
  split; [intros ->; now rewrite N.eqb_refl|]. split; intros H.
  - destruct (N.eqb_spec used t); [lia|]. destruct (N.ltb_spec t used); [|lia].
    assert (used - t <= t + 1) by (unfold t in *; lia).
    assert (fee * (used - t) / t / 8 <= fee * (t + 1) / t / 8).
    { apply N.div_le_mono; [lia|]. apply N.div_le_mono; [lia|]. nia. }
    set (a := fee * (used - t) / t / 8) in *. set (b := fee * (t + 1) / t / 8) in *. clearbody a b. lia.
  - destruct (N.eqb_spec used t); [lia|]. destruct (N.ltb_spec t used); [lia|].
    assert (fee * (t - used) / t / 8 <= fee / 8).
    { apply N.div_le_mono; [lia|]. apply N.div_le_upper_bound; [lia|]. nia. }
    set (a := fee * (t - used) / t / 8) in *. clearbody a. lia.
Qed.
(** With an even gas limit the increase is at most one eighth (or one wei). *)
Lemma next_fee_even fee used limit : 2 <= limit -> N.even limit = true -> used <= limit ->
  spec_next_base_fee fee used limit <= fee + N.max 1 (fee / 8).
Proof.
  intros Hl He Hu. unfold spec_next_base_fee. set (t := limit / 2). assert (Ht : 0 < t) by (unfold t; lia).
  assert (El : limit = 2 * t) by (apply N.even_spec in He as (m & ->); unfold t; lia).
  destruct (N.eqb_spec used t); [lia|]. destruct (N.ltb_spec t used).
  - assert (fee * (used - t) / t / 8 <= fee / 8).
    { apply N.div_le_mono; [lia|]. apply N.div_le_upper_bound; [lia|]. nia. }
    set (a := fee * (used - t) / t / 8) in *. clearbody a. lia.
  - set (a := fee * (t - used) / t / 8). clearbody a. lia.
Qed.

Lemma london_eqb c n : cfg_ok c ->
  match revision_block c EVMC_LONDON with Some (Some b) => n =? b | _ => false end = true <-> london_block c n.
Proof.
  intros (Hl & _). rewrite revision_block_activation by (exact Hl || (unfold EVMC_LONDON; lia)). unfold london_block, EVMC_LONDON.
  destruct (activation c 9) as [b|]; [rewrite N.eqb_eq|]; split; congruence.
Qed.

Lemma expected_base_fee_spec h p c : cfg_ok c ->
  2 <= hd_gas_limit p -> hd_gas_used p <= hd_gas_limit p < 2 ^ 64 ->
  (rules_from c 9 (hd_number h) -> ~ london_block c (hd_number h) -> exists pf, hd_base_fee p = Some pf /\ pf < 2 ^ 192) ->
  exists e, expected_base_fee_per_gas h p c = Some e /\
    (~ rules_from c 9 (hd_number h) -> e = None) /\
    (rules_from c 9 (hd_number h) -> london_block c (hd_number h) -> e = Some 1000000000) /\
    (rules_from c 9 (hd_number h) -> ~ london_block c (hd_number h) ->
       exists pf, hd_base_fee p = Some pf /\ e = Some (spec_next_base_fee pf (hd_gas_used p) (hd_gas_limit p))).
Proof.
  intros Hc Hl Hu Hpf. unfold expected_base_fee_per_gas. pose proof (rules_from_rev c 9 (hd_number h) ltac:(lia)) as R. unfold EVMC_LONDON at 1.
  destruct (N.ltb_spec (revision c (hd_number h)) 9) as [Hr|Hr].
  { exists None. split; [reflexivity|]. split; [reflexivity|]. split; intros H'; exfalso; apply R in H'; lia. }
  assert (H9 : rules_from c 9 (hd_number h)) by (apply R; lia).
  pose proof (london_eqb c (hd_number h) Hc) as L.
  destruct (match revision_block c EVMC_LONDON with Some (Some b) => hd_number h =? b | _ => false end) eqn:E.
  { exists (Some 1000000000). split; [reflexivity|]. apply proj1 in L. specialize (L eq_refl). tauto. }
  assert (HL : ~ london_block c (hd_number h)) by (intros H'; apply L in H'; discriminate).
  destruct (Hpf H9 HL) as (pf & Epf & Hpf'). rewrite Epf. set (t := hd_gas_limit p / 2). assert (Ht : 0 < t) by (unfold t; lia).
  unfold spec_next_base_fee. fold t. set (used := hd_gas_used p) in *. set (limit := hd_gas_limit p) in *.
  destruct (N.eqb_spec used t) as [Eu|Eu].
  { exists (Some pf). split; [reflexivity|]. split; [tauto|]. split; [tauto|]. eauto. }
  destruct (N.eqb_spec t 0); [lia|]. destruct (N.ltb_spec t used) as [Hlt|Hge].
  - eexists. split; [reflexivity|]. split; [tauto|]. split; [tauto|]. intros _ _. exists pf. split; [reflexivity|]. f_equal.
    assert (Hd : used - t <= 2 ^ 63) by (unfold t, limit in *; lia).
    assert (Hm : pf * (used - t) < 2 ^ 255).
    { assert (pf * (used - t) <= pf * 2 ^ 63) by nia. lia. }
    unfold mul256. rewrite (N.mod_small (pf * (used - t))) by lia.
    set (q := pf * (used - t)) in *. clearbody q. set (d := q / t / 8).
    assert (Hd' : d < 2 ^ 255). { unfold d. apply N.div_lt_upper_bound; [lia|]. apply N.div_lt_upper_bound; [lia|]. nia. }
    clearbody d. unfold add256. replace (if d <? 1 then 1 else d) with (N.max d 1) by (destruct (N.ltb_spec d 1); lia).
    apply N.mod_small. lia.
  - eexists. split; [reflexivity|]. split; [tauto|]. split; [tauto|]. intros _ _. exists pf. split; [reflexivity|]. f_equal.
    assert (Hm : pf * (t - used) < 2 ^ 256).
    { assert (t <= 2 ^ 63) by (unfold t; lia). assert (pf * (t - used) <= pf * 2 ^ 63) by nia. lia. }
    unfold mul256. rewrite (N.mod_small (pf * (t - used))) by exact Hm. set (d := pf * (t - used) / t / 8). clearbody d.
    destruct (N.ltb_spec d pf); lia.
Qed.

(** ** Signatures *)
Lemma order_eq : kSecp256k1n = secp256k1_order.
Proof. reflexivity. Qed.
Lemma is_valid_signature_char r s hs : is_valid_signature r s hs = true <->
  0 < r /\ 0 < s /\ (r < secp256k1_order \/ s < secp256k1_order) /\ (hs = true -> s <= secp256k1_order / 2).
Proof.
  unfold is_valid_signature, kSecp256k1Halfn. rewrite order_eq.
  set (n := secp256k1_order). clearbody n. set (h := n / 2). clearbody h.
  destruct (N.eqb_spec r 0); cbn [orb]; [split; [discriminate|lia]|]. destruct (N.eqb_spec s 0); [split; [discriminate|lia]|].
  destruct (N.leb_spec n r), (N.leb_spec n s); cbn [andb]; try (split; [discriminate|lia]);
  destruct hs; cbn [andb]; try (destruct (N.ltb_spec h s)); split; intros; try discriminate; try reflexivity; try lia.
Qed.
Lemma half_lt : secp256k1_order / 2 < secp256k1_order.
Proof. reflexivity. Qed.
Lemma is_valid_signature_complete r s hs : spec_valid_signature hs r s -> is_valid_signature r s hs = true.
Proof. intros (H1 & H2 & H3). apply is_valid_signature_char. repeat split; [lia|lia|lia|exact H3]. Qed.
Lemma is_valid_signature_exact r s hs : r < secp256k1_order -> (hs = true \/ s < secp256k1_order) ->
  is_valid_signature r s hs = true <-> spec_valid_signature hs r s.
Proof.
  intros Hr Hs. rewrite is_valid_signature_char. unfold spec_valid_signature. pose proof half_lt. split.
  - intros (H1 & H2 & _ & H4). repeat split; try lia; try assumption. destruct Hs as [->|]; [specialize (H4 eq_refl); lia|assumption].
  - intros (H1 & H2 & H3). repeat split; try lia.
Qed.

Lemma v_roundtrip odd c : match c with Some i => 2 * i + 36 < 2 ^ 256 | None => True end ->
  v_to_y_parity_and_chain_id (y_parity_and_chain_id_to_v odd c) = (odd, c).
Proof.
  intros H. unfold y_parity_and_chain_id_to_v, v_to_y_parity_and_chain_id. destruct c as [i|].
  - set (o := if odd then 1 else 0). assert (o <= 1) by (unfold o; destruct odd; lia). rewrite (N.mod_small (i * 2 + 35 + o)) by lia.
    destruct (N.eqb_spec (i * 2 + 35 + o) 27); [lia|]. destruct (N.eqb_spec (i * 2 + 35 + o) 28); [lia|]. cbn [orb].
    replace (i * 2 + 35 + o + 2 ^ 256 - 35) with (i * 2 + o + 1 * 2 ^ 256) by lia. rewrite N.mod_add by lia. rewrite (N.mod_small (i * 2 + o)) by lia.
    f_equal; [|f_equal; lia]. assert (E : (i * 2 + o) mod 2 ^ 64 mod 2 = o). { clear H. set (m := (i * 2 + o) mod 2 ^ 64). assert ((i * 2 + o) = 2 ^ 64 * ((i * 2 + o) / 2 ^ 64) + m) by (unfold m; apply N.div_mod; lia). set (q := (i*2+o) / 2^64) in *. clearbody m q. lia. }
    rewrite E. unfold o. destruct odd; reflexivity.
  - destruct odd; reflexivity.
Qed.

(** Any 256-bit v is reproduced, but a v outside {27, 28} and below 35 is not rejected: it yields a huge chain id. *)
Lemma v_inverse v : u256 v -> let '(odd, c) := v_to_y_parity_and_chain_id v in y_parity_and_chain_id_to_v odd c = v.
Proof.
  unfold u256. intros H. unfold v_to_y_parity_and_chain_id. destruct (N.eqb_spec v 27) as [->|E1]; [reflexivity|].
  destruct (N.eqb_spec v 28) as [->|E2]; [reflexivity|]. cbn [orb y_parity_and_chain_id_to_v].
  set (w := (v + 2 ^ 256 - 35) mod 2 ^ 256).
  assert (Eo : w mod 2 ^ 64 mod 2 = w mod 2).
  { set (m := w mod 2 ^ 64). assert (w = 2 ^ 64 * (w / 2 ^ 64) + m) by (unfold m; apply N.div_mod; lia). set (q := w / 2 ^ 64) in *. clearbody m q w. lia. }
  rewrite Eo.
  assert (Ep : (if negb (w mod 2 =? 0) then 1 else 0) = w mod 2) by (destruct (N.eqb_spec (w mod 2) 0); cbn [negb]; lia).
  rewrite Ep. replace (w / 2 * 2 + 35 + w mod 2) with (w + 35) by lia.
  unfold w. destruct (N.lt_ge_cases v 35).
  - rewrite (N.mod_small (v + 2 ^ 256 - 35)) by lia. replace (v + 2 ^ 256 - 35 + 35) with (v + 1 * 2 ^ 256) by lia. rewrite N.mod_add by lia. apply N.mod_small. exact H.
  - replace (v + 2 ^ 256 - 35) with (v - 35 + 1 * 2 ^ 256) by lia. rewrite N.mod_add by lia. rewrite (N.mod_small (v - 35)) by lia.
    replace (v - 35 + 35) with v by lia. apply N.mod_small. exact H.
Qed.
Lemma v_bad v odd c : v < 35 -> v <> 27 -> v <> 28 -> v_to_y_parity_and_chain_id v = (odd, c) -> exists i, c = Some i /\ 2 ^ 254 < i.
Proof.
  intros H1 H2 H3. unfold v_to_y_parity_and_chain_id. destruct (N.eqb_spec v 27); [lia|]. destruct (N.eqb_spec v 28); [lia|]. cbn [orb].
  rewrite (N.mod_small (v + 2 ^ 256 - 35)) by lia. intros [= _ <-]. eexists. split; [reflexivity|].
  apply N.div_le_lower_bound with (b := 2) (q := 2 ^ 255 - 18) in H1 || idtac.
  assert (2 ^ 255 - 18 <= (v + 2 ^ 256 - 35) / 2) by (apply N.div_le_lower_bound; lia). lia.
Qed.
Lemma v_good v odd c : 35 <= v -> u256 v -> v_to_y_parity_and_chain_id v = (odd, c) -> exists i, c = Some i /\ v = 2 * i + 35 + (if odd then 1 else 0).
Proof.
  unfold u256. intros H1 H2. unfold v_to_y_parity_and_chain_id. destruct (N.eqb_spec v 27); [lia|]. destruct (N.eqb_spec v 28); [lia|]. cbn [orb].
  replace (v + 2 ^ 256 - 35) with (v - 35 + 1 * 2 ^ 256) by lia. rewrite N.mod_add by lia. rewrite (N.mod_small (v - 35)) by lia.
  set (w := v - 35) in *.
  assert (Eo : w mod 2 ^ 64 mod 2 = w mod 2).
  { set (m := w mod 2 ^ 64). assert (w = 2 ^ 64 * (w / 2 ^ 64) + m) by (unfold m; apply N.div_mod; lia). set (q := w / 2 ^ 64) in *. clearbody m q. lia. }
  rewrite Eo. intros [= <- <-]. eexists. split; [reflexivity|]. unfold w in *. destruct (N.eqb_spec ((v - 35) mod 2) 0); cbn [negb]; lia.
Qed.

(** ** Verdicts *)
Lemma verdict_det rs a b : verdict rs a -> verdict rs b -> a = b.
Proof.
  intros H. revert b. induction H as [|P e rs Hn|P e rs r HP H IH]; intros b Hb; inversion Hb; subst; auto; tauto.
Qed.
Lemma verdict_ok_iff rs : (forall P e, In (Rule P e) rs -> e <> kOk) -> verdict rs kOk <-> Forall (fun r => match r with Rule P _ => P end) rs.
Proof.
  induction rs as [|[P e] rs IH]; intros H; [split; constructor|]. split; intros Hv.
  - inversion Hv; subst; [exfalso; eapply H; [now left|reflexivity]|]. constructor; [assumption|]. apply IH; [|assumption]. intros. eapply H. right. eassumption.
  - inversion Hv; subst. apply verdict_next; [assumption|]. apply IH; [|assumption]. intros. eapply H. right. eassumption.
Qed.
Lemma verdict_step (P : Prop) (b : bool) e rs r : (b = true <-> ~ P) -> (P \/ ~ P) -> (P -> verdict rs r) -> verdict (Rule P e :: rs) (if b then e else r).
Proof.
  intros Hb Hd H. destruct b; [apply verdict_bad; now apply Hb|]. destruct Hd as [HP|HP]; [now apply verdict_next; auto|]. apply Hb in HP. discriminate.
Qed.

Lemma rules_dec c r n : r <= 10 -> rules_from c r n \/ ~ rules_from c r n.
Proof. intros Hr. rewrite rules_from_rev by exact Hr. lia. Qed.

Lemma gas_rule_iff c n t : gas_rule c n t <-> spec_intrinsic_gas t (1 <=? revision c n) (7 <=? revision c n) <= tx_gas_limit t.
Proof.
  unfold gas_rule. split.
  - intros (hs & ist & H1 & H2 & H). rewrite rules_from_rev in H1, H2 by lia. rewrite <- N.leb_le in H1, H2.
    replace (1 <=? revision c n) with hs by (destruct hs, (1 <=? revision c n); try reflexivity; exfalso; intuition congruence).
    replace (7 <=? revision c n) with ist by (destruct ist, (7 <=? revision c n); try reflexivity; exfalso; intuition congruence). exact H.
  - intros H. exists (1 <=? revision c n), (7 <=? revision c n). rewrite !rules_from_rev by lia. rewrite !N.leb_le. tauto.
Qed.
Lemma signature_rule_iff c n t : signature_rule c n t <-> spec_valid_signature (1 <=? revision c n) (tx_r t) (tx_s t).
Proof.
  unfold signature_rule. split.
  - intros (hs & H1 & H). rewrite rules_from_rev in H1 by lia. rewrite <- N.leb_le in H1.
    replace (1 <=? revision c n) with hs by (destruct hs, (1 <=? revision c n); try reflexivity; exfalso; intuition congruence). exact H.
  - intros H. exists (1 <=? revision c n). rewrite rules_from_rev by lia. rewrite N.leb_le. tauto.
Qed.

(** The one case in which the code's signature check is too weak. *)
Definition sig_in_range (c : chain_config) (n : N) (t : transaction) : Prop :=
  tx_r t < secp256k1_order /\ (rules_from c 1 n \/ tx_s t < secp256k1_order).

Lemma pre_validate_verdict t n c bf : tx_sizes_ok t -> sig_in_range c n t -> verdict (tx_rules c n bf t) (pre_validate_transaction t n c bf).
Proof.
  intros Hsz (Hr & Hs). unfold pre_validate_transaction, tx_rules. cbv zeta.
  unfold EVMC_SPURIOUS_DRAGON, EVMC_BERLIN, EVMC_LONDON, EVMC_HOMESTEAD, EVMC_ISTANBUL.
  set (rv := revision c n).
  apply verdict_step.
  { unfold chain_id_rule. destruct (tx_chain_id t) as [i|]; [|split; [discriminate|intros H; exfalso; apply H; discriminate]].
    pose proof (rules_from_rev c 3 n ltac:(lia)) as R3. fold rv in R3. rewrite orb_true_iff, negb_true_iff, N.ltb_lt, N.eqb_neq. split.
    - intros H H'. destruct (H' i eq_refl) as [H1 H2]. apply R3 in H1. lia.
    - intros H. destruct (N.lt_ge_cases rv 3); [auto|]. right. intros ->. apply H. intros ? [= <-]. split; [now apply R3|reflexivity]. }
  { unfold chain_id_rule. destruct (tx_chain_id t) as [i|]; [|left; discriminate]. pose proof (rules_from_rev c 3 n ltac:(lia)) as R3. fold rv in R3.
    destruct (N.le_gt_cases 3 rv), (N.eq_dec i (cfg_chain_id c)); [left; intros ? [= <-]; split; [now apply R3|assumption]|right|right|right]; intros H'; destruct (H' i eq_refl) as [H1 H2]; apply R3 in H1; lia. }
  intros _. apply verdict_step.
  { unfold type_rule. rewrite !rules_from_rev by lia. fold rv. destruct (tx_typ t); rewrite ?N.ltb_lt.
    - split; [discriminate|]. intros H. exfalso. apply H. split; discriminate.
    - split; intros H; [intros [H' _]; specialize (H' eq_refl); lia|]. destruct (N.lt_ge_cases rv 8); [assumption|]. exfalso. apply H. split; [auto|discriminate].
    - split; intros H; [intros [_ H']; specialize (H' eq_refl); lia|]. destruct (N.lt_ge_cases rv 9); [assumption|]. exfalso. apply H. split; [discriminate|auto]. }
  { unfold type_rule. rewrite !rules_from_rev by lia. fold rv. destruct (tx_typ t).
    - left. split; discriminate.
    - destruct (N.le_gt_cases 8 rv); [left; split; [auto|discriminate]|right; intros [H' _]; specialize (H' eq_refl); lia].
    - destruct (N.le_gt_cases 9 rv); [left; split; [discriminate|auto]|right; intros [_ H']; specialize (H' eq_refl); lia]. }
  intros _. apply verdict_step.
  { destruct bf as [b|]; [|split; [discriminate|intros H; exfalso; apply H; discriminate]]. rewrite N.ltb_lt. split.
    - intros H H'. specialize (H' b eq_refl). lia.
    - intros H. destruct (N.lt_ge_cases (tx_max_fee t) b); [assumption|]. exfalso. apply H. intros ? [= <-]. assumption. }
  { destruct bf as [b|]; [|left; discriminate]. destruct (N.le_gt_cases b (tx_max_fee t)); [left; intros ? [= <-]; assumption|right; intros H'; specialize (H' b eq_refl); lia]. }
  intros _. apply verdict_step.
  { rewrite N.ltb_lt. lia. } { lia. }
  intros _. 
  assert (Hs' : (1 <=? rv) = true \/ tx_s t < secp256k1_order) by (rewrite rules_from_rev in Hs by lia; rewrite N.leb_le; exact Hs).
  apply verdict_step.
  { rewrite signature_rule_iff, negb_true_iff. fold rv. rewrite <- (is_valid_signature_exact _ _ _ Hr Hs'). destruct (is_valid_signature _ _ _); split; congruence. }
  { rewrite signature_rule_iff. fold rv. rewrite <- (is_valid_signature_exact _ _ _ Hr Hs'). destruct (is_valid_signature _ _ _); [left|right]; congruence. }
  intros _. rewrite (proj1 (intrinsic_gas_spec t _ _ Hsz)). apply verdict_step.
  { rewrite gas_rule_iff. fold rv. rewrite N.ltb_lt. lia. }
  { rewrite gas_rule_iff. lia. }
  intros _. constructor.
Qed.

(** Without the assumption on the signature: nothing valid is rejected. *)
Lemma pre_validate_complete t n c bf : tx_sizes_ok t -> verdict (tx_rules c n bf t) kOk -> pre_validate_transaction t n c bf = kOk.
Proof.
  intros Hsz Hv. assert (Hsr : sig_in_range c n t).
  { apply verdict_ok_iff in Hv.
    - unfold tx_rules in Hv. rewrite !Forall_cons_iff in Hv. destruct Hv as (_ & _ & _ & _ & Hs & _). apply signature_rule_iff in Hs.
      destruct Hs as (H1 & H2 & _). split; [lia|right; lia].
    - unfold tx_rules. cbn. intros P e Hx; decompose [or] Hx; try contradiction; match goal with H : Rule _ _ = Rule _ _ |- _ => injection H as _ <- end; discriminate. }
  eapply verdict_det; [|exact Hv]. now apply pre_validate_verdict.
Qed.

(** ** Header validation *)
Lemma bytes_eqb_eq a b : bytes_eqb a b = true <-> a = b.
Proof.
  revert b. induction a as [|x a IH]; intros [|y b]; cbn; split; try congruence; try reflexivity; intros H.
  - apply andb_true_iff in H as [H1 H2]. apply N.eqb_eq in H1. apply IH in H2. congruence.
  - injection H as -> ->. rewrite N.eqb_refl. now apply IH.
Qed.
Lemma opt_eqb_eq a b : opt_eqb a b = true <-> a = b.
Proof. destruct a, b; cbn; rewrite ?N.eqb_eq; split; congruence. Qed.
Lemma header_eqb_eq a b : header_eqb a b = true <-> a = b.
Proof.
  unfold header_eqb. rewrite !andb_true_iff, !bytes_eqb_eq, !N.eqb_eq, opt_eqb_eq. destruct a, b; cbn. split.
  - intros (((((((((((((((? & ?) & ?) & ?) & ?) & ?) & ?) & ?) & ?) & ?) & ?) & ?) & ?) & ?) & ?) & ?). subst. reflexivity.
  - intros [= -> -> -> -> -> -> -> -> -> -> -> -> -> -> -> ->]. repeat split.
Qed.
Lemma opt_header_eqb_eq a b : opt_header_eqb a b = true <-> a = b.
Proof. destruct a, b; cbn; rewrite ?header_eqb_eq; split; congruence. Qed.

Lemma verdict_step_o (P : Prop) (b : bool) e rs r : (b = true <-> ~ P) -> (P \/ ~ P) -> (P -> exists r', r = Some r' /\ verdict rs r') ->
  exists r', (if b then Some e else r) = Some r' /\ verdict (Rule P e :: rs) r'.
Proof.
  intros Hb Hd H. destruct b.
  - exists e. split; [reflexivity|]. apply verdict_bad. now apply Hb.
  - destruct Hd as [HP|HP]; [|apply Hb in HP; discriminate]. destruct (H HP) as (r' & -> & Hv). exists r'. split; [reflexivity|]. now apply verdict_next.
Qed.
Lemma verdict_step_neg (P : Prop) (b : bool) e rs r : (b = true <-> P) -> (P -> exists r', r = Some r' /\ verdict rs r') ->
  exists r', (if negb b then Some e else r) = Some r' /\ verdict (Rule P e :: rs) r'.
Proof.
  intros Hb H. apply verdict_step_o; [|destruct b; [left; now apply Hb|right; intros HP; apply Hb in HP; discriminate]|exact H].
  rewrite negb_true_iff. destruct b; split; try congruence; intros Hn; try (intros HP; apply Hb in HP; discriminate). exfalso. apply Hn. now apply Hb.
Qed.

  (** ** Ommers *)
  Lemma is_kin_true st o n : forall h hash acc old, is_kin o h hash n st acc = (true, old) ->
    exists i old', (i <= n)%nat /\ old = acc ++ old' /\ kin_at st o h hash i old'.
  Proof.
    induction n as [|m IH]; intros h hash acc old; cbn [is_kin]; [discriminate|].
    destruct (header_eqb o h) eqn:E; [discriminate|]. assert (No : o <> h) by (intros ->; rewrite (proj2 (header_eqb_eq h h) eq_refl) in E; discriminate).
    destruct (read_body st (hd_number h) hash) as [body|] eqn:Eb; [|discriminate].
    destruct (get_parent st h) as [p|] eqn:Ep; [|discriminate].
    destruct (opt_header_eqb (get_parent st o) (Some p)) eqn:Es.
    - intros [= <-]. apply opt_header_eqb_eq in Es. exists 1%nat, (bd_ommers body). split; [lia|]. split; [reflexivity|]. eapply kin_here; eauto.
    - intros H. apply IH in H as (i & old' & Hi & -> & Hk). exists (S i), (bd_ommers body ++ old'). split; [lia|]. split; [now rewrite app_assoc|].
      eapply kin_up; eauto.
  Qed.
  Lemma is_kin_complete st o h hash i old : kin_at st o h hash i old -> forall n acc, (i <= n)%nat ->
    exists i' old' rest, is_kin o h hash n st acc = (true, acc ++ old') /\ (i' <= i)%nat /\ old = old' ++ rest.
  Proof.
    induction 1 as [h hash body p No Hb Hp Ho|h hash body p i old No Hb Hp Hk IH]; intros n acc Hn.
    - destruct n as [|m]; [lia|]. cbn [is_kin]. destruct (header_eqb o h) eqn:E; [apply header_eqb_eq in E; contradiction|].
      rewrite Hb, Hp, Ho. rewrite (proj2 (opt_header_eqb_eq (Some p) (Some p)) eq_refl). exists 1%nat, (bd_ommers body), []. rewrite app_nil_r. auto.
    - destruct n as [|m]; [lia|]. cbn [is_kin]. destruct (header_eqb o h) eqn:E; [apply header_eqb_eq in E; contradiction|].
      rewrite Hb, Hp. destruct (opt_header_eqb (get_parent st o) (Some p)) eqn:Es.
      + exists 1%nat, (bd_ommers body), old. split; [reflexivity|]. split; [lia|reflexivity].
      + destruct (IH m (acc ++ bd_ommers body)) as (i' & old' & rest & -> & Hi' & ->); [lia|].
        exists (S i'), (bd_ommers body ++ old'), rest. rewrite !app_assoc. split; [reflexivity|]. split; [lia|reflexivity].
  Qed.

  Lemma ommer_check_iff st h p o :
    (let '(kin, old) := is_kin o p (hd_parent_hash h) 6 st [] in kin && negb (existsb (fun oo => header_eqb oo o) old)) = true
    <-> spec_ommer_kin st h p o.
  Proof.
    assert (Hin : forall l, existsb (fun oo => header_eqb oo o) l = false <-> ~ In o l).
    { intros l. induction l as [|x l IH]; cbn; [tauto|]. destruct (header_eqb x o) eqn:E; cbn.
      - apply header_eqb_eq in E as ->. split; [discriminate|tauto].
      - rewrite IH. split; [intros H [->|]; [rewrite (proj2 (header_eqb_eq o o) eq_refl) in E; discriminate|tauto]|tauto]. }
    unfold spec_ommer_kin. destruct (is_kin o p (hd_parent_hash h) 6 st []) as [kin old] eqn:E. destruct kin; cbn [andb].
    - rewrite negb_true_iff, Hin. split.
      + intros Hn. apply is_kin_true in E as (i & old' & Hi & Eo & Hk). cbn in Eo. subst old'. eauto.
      + intros (i' & old' & Hi' & Hk' & Hn). destruct (is_kin_complete _ _ _ _ _ _ Hk' 6%nat [] Hi') as (j & o1 & rest & E1 & _ & ->).
        rewrite E in E1. injection E1 as ->. intros Hi. apply Hn. apply in_or_app. now left.
    - split; [discriminate|]. intros (i & old' & Hi & Hk & _). destruct (is_kin_complete _ _ _ _ _ _ Hk 6%nat [] Hi) as (j & o1 & rest & E1 & _). congruence.
  Qed.

Section Headers.
  Variable keccak : bytes -> bytes.
  Variable verify_full : N -> bytes -> bytes -> N -> N -> bool.
  Variable txn_root : list transaction -> bytes.
  Definition seal_ok (h : block_header) : Prop :=
    verify_full (hd_number h) (hdr_hash keccak h true) (hd_mix_hash h) (be_to_N (hd_nonce h)) (hd_difficulty h) = true.

  Lemma kEmptyListHash_dec h : negb (bytes_eqb h kEmptyListHash) = true <-> h <> kEmptyListHash.
  Proof. rewrite negb_true_iff. pose proof (bytes_eqb_eq h kEmptyListHash). destruct (bytes_eqb h kEmptyListHash); intuition congruence. Qed.

  Lemma difficulty_rule c h p : child_ok c h p -> hd_timestamp p < hd_timestamp h ->
    canonical_difficulty (hd_number h) (hd_timestamp h) (hd_difficulty p) (hd_timestamp p)
      (negb (bytes_eqb (hd_ommers_hash p) kEmptyListHash)) c =? hd_difficulty h = true <-> spec_difficulty_ok c h p.
  Proof.
    intros (Hn & Ht & Hd & _ & _ & _ & Hsd & Hpd & _) Hts.
    set (un := negb (bytes_eqb (hd_ommers_hash p) kEmptyListHash)).
    pose proof (kEmptyListHash_dec (hd_ommers_hash p)) as Hun. fold un in Hun.
    assert (S : forall d, spec_difficulty c (hd_number h) (Z.of_N (hd_timestamp h) - Z.of_N (hd_timestamp p)) (Z.of_N (hd_difficulty p)) un d ->
        Z.of_N (canonical_difficulty (hd_number h) (hd_timestamp h) (hd_difficulty p) (hd_timestamp p) un c) = d).
    { intros d Hs. apply canonical_difficulty_spec; try assumption; [lia|]. eauto. }
    rewrite N.eqb_eq. split.
    - intros E. exists un. split; [exact Hun|]. 
      destruct (spec_difficulty_total c (hd_number h) (Z.of_N (hd_timestamp h) - Z.of_N (hd_timestamp p)) (Z.of_N (hd_difficulty p)) un) as (d & Hs).
      rewrite <- E. rewrite (S d Hs). exact Hs.
    - intros (un' & Hun' & Hs). replace un' with un in Hs by (destruct un, un'; try reflexivity; exfalso; intuition congruence).
      apply S in Hs. lia.
  Qed.

  Lemma base_fee_rule c h p : cfg_ok c -> child_ok c h p -> exists fee, expected_base_fee_per_gas h p c = Some fee /\
    (opt_eqb (hd_base_fee h) fee = true <-> spec_base_fee_ok c h p).
  Proof.
    intros Hc (Hn & Ht & Hd & Hl & Hpf & Hu & _). destruct (expected_base_fee_spec h p c Hc) as (e & He & H1 & H2 & H3); [lia|lia|exact Hpf|].
    exists e. split; [exact He|]. rewrite opt_eqb_eq. unfold spec_base_fee_ok.
    assert (DL : london_block c (hd_number h) \/ ~ london_block c (hd_number h)).
    { unfold london_block. destruct (activation c 9) as [b|]; [destruct (N.eq_dec b (hd_number h)); [left|right]; congruence|right; discriminate]. }
    destruct (rules_dec c 9 (hd_number h) ltac:(lia)) as [H9|H9]; destruct DL as [HL|HL].
    - specialize (H2 H9 HL). subst e. split; [intros ->; split; [tauto|]; intros _; split; [reflexivity|tauto]|]. intros [_ H]. now apply H.
    - destruct (H3 H9 HL) as (pf & Epf & ->). split; [intros ->; split; [tauto|]; intros _; split; [tauto|]; intros _; eauto|].
      intros [_ H]. destruct (proj2 (H H9) HL) as (pf' & Epf' & ->). congruence.
    - specialize (H1 H9). subst e. split; [intros ->; split; tauto|]. intros [H _]. now apply H.
    - specialize (H1 H9). subst e. split; [intros ->; split; tauto|]. intros [H _]. now apply H.
  Qed.

  Lemma gas_limit_rule c h p pl : cfg_ok c -> child_ok c h p ->
    pl = (if match revision_block c EVMC_LONDON with Some (Some b) => hd_number h =? b | _ => false end
            then mul64 (hd_gas_limit p) 2 else hd_gas_limit p) ->
    (pl / 1024 <=? (if pl <? hd_gas_limit h then hd_gas_limit h - pl else pl - hd_gas_limit h)) = true <-> ~ spec_gas_limit_ok c h p.
  Proof.
    intros Hc (_ & _ & _ & Hl & _) ->. pose proof (london_eqb c (hd_number h) Hc) as L.
    set (b := match revision_block c EVMC_LONDON with Some (Some b) => hd_number h =? b | _ => false end) in *.
    assert (Em : mul64 (hd_gas_limit p) 2 = 2 * hd_gas_limit p) by (unfold mul64; rewrite N.mod_small; lia). rewrite Em.
    set (pl := if b then 2 * hd_gas_limit p else hd_gas_limit p).
    assert (E : spec_gas_limit_ok c h p <-> hd_gas_limit h < pl + pl / 1024 /\ pl < hd_gas_limit h + pl / 1024).
    { unfold spec_gas_limit_ok. split.
      - intros (x & Hx1 & Hx2 & Hx). replace pl with x; [exact Hx|]. unfold pl. destruct b; [now apply Hx1, L|]. apply Hx2. intros H. apply L in H. discriminate.
      - intros H. exists pl. split; [|split; [|exact H]]; intros H'; unfold pl; destruct b; try reflexivity; [apply L in H'; discriminate|]. exfalso. apply H'. now apply L. }
    rewrite E. clearbody pl. set (q := pl / 1024). clearbody q. rewrite N.leb_le. destruct (N.ltb_spec pl (hd_gas_limit h)); lia.
  Qed.
  Lemma gas_limit_dec c h p : spec_gas_limit_ok c h p \/ ~ spec_gas_limit_ok c h p.
  Proof.
    assert (DL : london_block c (hd_number h) \/ ~ london_block c (hd_number h)).
    { unfold london_block. destruct (activation c 9) as [b|]; [destruct (N.eq_dec b (hd_number h)); [left|right]; congruence|right; discriminate]. }
    unfold spec_gas_limit_ok. destruct DL as [HL|HL].
    - set (pl := 2 * hd_gas_limit p). destruct (N.lt_ge_cases (hd_gas_limit h) (pl + pl / 1024)), (N.lt_ge_cases pl (hd_gas_limit h + pl / 1024)).
      + left. exists pl. tauto.
      + right. intros (x & H1 & H2 & H3 & H4). rewrite (H1 HL) in H3, H4. fold pl in H3, H4. set (q := pl / 1024) in *. clearbody q. lia.
      + right. intros (x & H1 & H2 & H3 & H4). rewrite (H1 HL) in H3, H4. fold pl in H3, H4. set (q := pl / 1024) in *. clearbody q. lia.
      + right. intros (x & H1 & H2 & H3 & H4). rewrite (H1 HL) in H3, H4. fold pl in H3, H4. set (q := pl / 1024) in *. clearbody q. lia.
    - set (pl := hd_gas_limit p). destruct (N.lt_ge_cases (hd_gas_limit h) (pl + pl / 1024)), (N.lt_ge_cases pl (hd_gas_limit h + pl / 1024)).
      + left. exists pl. tauto.
      + right. intros (x & H1 & H2 & H3 & H4). rewrite (H2 HL) in H3, H4. fold pl in H3, H4. set (q := pl / 1024) in *. clearbody q. lia.
      + right. intros (x & H1 & H2 & H3 & H4). rewrite (H2 HL) in H3, H4. fold pl in H3, H4. set (q := pl / 1024) in *. clearbody q. lia.
      + right. intros (x & H1 & H2 & H3 & H4). rewrite (H2 HL) in H3, H4. fold pl in H3, H4. set (q := pl / 1024) in *. clearbody q. lia.
  Qed.

  Definition dao_bad (c : chain_config) (h : block_header) : bool :=
    match cfg_dao_block c with
    | Some d => (d <=? hd_number h) && (hd_number h <=? add64 d 9) && negb (bytes_eqb (hd_extra_data h) kDaoExtraData)
    | None => false
    end.
  Lemma dao_rule c h : (forall d, cfg_dao_block c = Some d -> d + 9 < 2 ^ 64) -> negb (dao_bad c h) = true <-> spec_dao_ok c h.
  Proof.
    intros Hd. unfold dao_bad, spec_dao_ok. destruct (cfg_dao_block c) as [d|]; [|split; [discriminate|reflexivity]].
    specialize (Hd d eq_refl). unfold add64. rewrite (N.mod_small (d + 9)) by lia. rewrite negb_true_iff.
    change (text _) with kDaoExtraData. pose proof (bytes_eqb_eq (hd_extra_data h) kDaoExtraData) as B.
    destruct (bytes_eqb (hd_extra_data h) kDaoExtraData); cbn [negb]; rewrite ?andb_false_r, ?andb_true_r.
    - split; [|reflexivity]. intros _ ? _ _. now apply B.
    - split.
      + intros H d' [= <-] [H1 H2]. exfalso. destruct (N.leb_spec d (hd_number h)), (N.leb_spec (hd_number h) (d + 9)); cbn in H; congruence || lia.
      + intros H. destruct (N.leb_spec d (hd_number h)), (N.leb_spec (hd_number h) (d + 9)); cbn; try reflexivity. specialize (H d eq_refl (conj H0 H1)). apply B in H. discriminate.
  Qed.

  Lemma validate_header_verdict h st c : cfg_ok c -> (forall p, get_parent st h = Some p -> child_ok c h p) ->
    exists r, validate_block_header keccak verify_full h st c = Some r /\ verdict (header_rules c seal_ok h (get_parent st h)) r.
  Proof.
    intros Hc Hp. unfold validate_block_header, header_rules, header_rules_no_parent. cbn [app].
    apply verdict_step_o; [rewrite N.ltb_lt; lia|lia|intros _].
    apply verdict_step_o; [rewrite N.ltb_lt; lia|lia|intros _].
    apply verdict_step_o; [rewrite N.ltb_lt; lia|lia|intros _].
    apply verdict_step_o; [rewrite N.ltb_lt; lia|lia|intros _].
    destruct (get_parent st h) as [p|]; [|exists kUnknownParent; split; [reflexivity|apply verdict_bad; tauto]].
    specialize (Hp p eq_refl). unfold header_rules_parent.
    apply verdict_step_o; [rewrite N.leb_le; lia|lia|intros Hts]. cbv zeta.
    apply verdict_step_o; [now apply gas_limit_rule|apply gas_limit_dec|intros _].
    apply verdict_step_neg; [now apply difficulty_rule|intros _].
    fold (dao_bad c h). rewrite <- (negb_involutive (dao_bad c h)).
    apply verdict_step_neg; [apply dao_rule, Hp|intros _].
    destruct (base_fee_rule c h p Hc Hp) as (fee & -> & Hf).
    apply verdict_step_neg; [exact Hf|intros _].
    destruct (cfg_seal_engine c) eqn:Es; try (exists kOk; split; [reflexivity|apply verdict_next; [discriminate|constructor]]).
    destruct (verify_full (hd_number h) (hdr_hash keccak h true) (hd_mix_hash h) (be_to_N (hd_nonce h)) (hd_difficulty h)) eqn:E.
    - exists kOk. split; [reflexivity|]. apply verdict_next; [intros _; exact E|constructor].
    - exists kInvalidSeal. split; [reflexivity|]. apply verdict_bad. intros H. specialize (H eq_refl). unfold seal_ok in H. congruence.
  Qed.

End Headers.
