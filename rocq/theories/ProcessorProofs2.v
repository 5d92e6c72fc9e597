(** Blocks: the transactions in order, the rewards and the DAO transfer. *)
From stdpp Require Import gmap.
From Coq Require Import ZArith.
From Verif Require Import Base BaseFacts RlpModel TxModel BlockModel TypesModel ChainModel StateModel JournalProofs EvmModel EvmSpec EvmProofs EvmLemmas ProcessorModel ProcessorSpec BlockHashProofs ProcessorProofs.

Section Blocks.
  Variable keccak : bytes -> bytes.
  Variable db : db_reader.
  Variable rev : N.
  Variable pre_gas : N -> bytes -> N -> N.
  Variable pre_run : N -> bytes -> option bytes.
  Variable block_hash : N -> bytes.
  Variable interp : message -> bytes -> prog.
  Variable fuel : nat.
  Variable iterate : gset N -> list N.
  Variable header : block_header.
  Notation etxn := (execute_txn keccak db rev pre_gas pre_run block_hash interp fuel).
  Notation exec := (execute_transaction keccak db rev pre_gas pre_run block_hash interp fuel iterate header).
  Notation execs := (execute_transactions keccak db rev pre_gas pre_run block_hash interp fuel iterate header).
  Notation bal := (JournalProofs.bal db).

  Hypothesis Hdb : forall a k, read_storage db a 0 k = 0.
  Variable strict : bool.
  Hypothesis Hlaw : lawful strict interp.
  Hypothesis Hfuel : (1024 <= fuel)%nat.
  Hypothesis Hiter : forall X, Permutation (iterate X) (elements X).
  Lemma validate_quiet cum t s err s0 : validate_transaction db header cum t s = (err, s0) -> quiet db s s0.
  Proof.
    unfold validate_transaction. destruct (tx_from t) as [from|]; [|intros [= <- <-]; apply quiet_refl].
    destruct (get_nonce db s (be_to_N from)) as [n s1] eqn:E1. destruct (get_nonce_quiet _ _ _ _ _ E1) as (Q1 & ->).
    destruct (negb _); [intros [= <- <-]; exact Q1|].
    destruct (get_balance db s1 (be_to_N from)) as [b s2] eqn:E2. destruct (get_balance_quiet _ _ _ _ _ E2) as (Q2 & ->).
    pose proof (quiet_trans _ _ _ _ Q1 Q2) as Q. destruct (_ <? _); [intros [= <- <-]; exact Q|]. destruct (_ <? _); intros [= <- <-]; exact Q.
  Qed.

  Theorem transactions_ok ts : forall cum s tt, hd_gas_limit header < 2 ^ 63 -> cum <= hd_gas_limit header -> Forall (prevalidated rev header) ts ->
    total (balance_of db s) tt -> tt < 2 ^ 256 ->
    exists rs err s' used, execs cum ts s = Some (rs, err, s') /\ map rc_cumulative_gas_used rs = running cum used
      /\ length used = length rs /\ (length rs <= length ts)%nat /\ (err = kOk -> length rs = length ts)
      /\ Forall (fun c => c <= hd_gas_limit header) (map rc_cumulative_gas_used rs)
      /\ Forall2 (fun t u => u <= tx_gas_limit t /\ ProcessorProofs.g0_of rev t - ProcessorProofs.g0_of rev t / refund_quotient rev <= u) (firstn (length rs) ts) used
      /\ Forall2 (fun t rc => rc_type rc = tx_typ t /\ rc_bloom rc = logs_bloom keccak (rc_logs rc)) (firstn (length rs) ts) rs
      /\ exists tt', total (balance_of db s') tt' /\ tt' + fold_right N.add 0 used * base_fee_of header <= tt.
  Proof.
    induction ts as [|t ts IH]; intros cum s tt Hh Hc Hpv T Ht.
    - exists [], kOk, s, []. repeat split; try constructor. exists tt. split; [exact T|]. cbn. lia.
    - cbn [execute_transactions]. destruct (validate_transaction db header cum t s) as [err s0] eqn:Ev. pose proof (validate_quiet _ _ _ _ _ Ev) as Q.
      assert (Fail : err <> kOk -> exists rs err0 s' used, Some ([], err, s0) = Some (rs, err0, s') /\ map rc_cumulative_gas_used rs = running cum used
          /\ length used = length rs /\ (length rs <= length (t :: ts))%nat /\ (err0 = kOk -> length rs = length (t :: ts))
          /\ Forall (fun c => c <= hd_gas_limit header) (map rc_cumulative_gas_used rs)
          /\ Forall2 (fun t u => u <= tx_gas_limit t /\ ProcessorProofs.g0_of rev t - ProcessorProofs.g0_of rev t / refund_quotient rev <= u) (firstn (length rs) (t :: ts)) used
          /\ Forall2 (fun t rc => rc_type rc = tx_typ t /\ rc_bloom rc = logs_bloom keccak (rc_logs rc)) (firstn (length rs) (t :: ts)) rs
          /\ exists tt', total (balance_of db s') tt' /\ tt' + fold_right N.add 0 used * base_fee_of header <= tt).
      { intros He. exists [], err, s0, []. split; [reflexivity|]. split; [reflexivity|]. split; [reflexivity|]. split; [apply Nat.le_0_l|]. split; [contradiction|]. split; [constructor|]. split; [constructor|]. split; [constructor|].
        exists tt. cbn. split; [|lia]. apply total_balance. apply total_balance in T. destruct (kept_quiet _ _ _ Q) as (_ & B). eapply total_ext; [|exact T]. intros; now rewrite B. }
      destruct err; try (apply Fail; discriminate). clear Fail.
      apply Forall_cons_iff in Hpv as (Hp & Hpv).
      destruct (transaction_ok keccak db rev pre_gas pre_run block_hash interp fuel iterate header Hdb strict Hlaw Hfuel Hiter cum t s s0 tt Hh Hc Hp Ev T Ht) as (s1 & r & s2 & u & rc & s' & _ & _ & E & G & Hcu & -> & _ & t1 & T1 & L1 & _).
      rewrite E. cbv zeta in G. destruct G as (G1 & G2 & _).
      destruct (IH (cum + u) s' t1 Hh Hcu Hpv T1 ltac:(lia)) as (rs & err & s3 & used & E3 & M & Ln & Lr & Lk & Lf & Lu & Lb & t2 & T2 & L2).
      rewrite E3. exists (mkReceipt (tx_typ t) (is_success (r_status r)) (cum + u) (logs_bloom keccak (logs s2)) (logs s2) :: rs), err, s3, (u :: used).
      split; [reflexivity|]. split; [cbn; now rewrite M|]. split; [cbn; now rewrite Ln|]. split; [cbn; lia|]. split; [intros He; cbn; now rewrite (Lk He)|].
      split; [cbn; constructor; [exact Hcu|exact Lf]|]. split.
      + cbn. constructor; [|exact Lu]. split; [lia|]. remember (tx_gas_limit t - Z.to_N (r_gas r)) as sp. unfold refund_quotient in *.
        destruct (rev <? EVMC_LONDON).
        * assert (sp - sp / 2 >= ProcessorProofs.g0_of rev t - ProcessorProofs.g0_of rev t / 2); [|lia]. pose proof (N.div_mod sp 2). pose proof (N.div_mod (ProcessorProofs.g0_of rev t) 2). pose proof (N.mod_lt sp 2). pose proof (N.mod_lt (ProcessorProofs.g0_of rev t) 2). lia.
        * assert (sp - sp / 5 >= ProcessorProofs.g0_of rev t - ProcessorProofs.g0_of rev t / 5); [|lia]. pose proof (N.div_mod sp 5). pose proof (N.div_mod (ProcessorProofs.g0_of rev t) 5). pose proof (N.mod_lt sp 5). pose proof (N.mod_lt (ProcessorProofs.g0_of rev t) 5). lia.
      + split; [cbn; constructor; [split; reflexivity|exact Lb]|]. exists t2. split; [exact T2|]. cbn [fold_right]. lia.
  Qed.

End Blocks.

Section Rewards.
  Variable db : db_reader.
  Variable rev : N.
  Variable header : block_header.
  Hypothesis Hdb : forall a k, read_storage db a 0 k = 0.
  Notation bal := (JournalProofs.bal db).

  (** Rewards *)
  Definition rewardo (o : block_header) : N := ommer_share rev (hd_number header - hd_number o).
  Lemma block_reward_eq : block_reward rev = static_reward rev.
  Proof. unfold block_reward, static_reward. rewrite !N.leb_antisym. unfold EVMC_BYZANTIUM, EVMC_CONSTANTINOPLE.
    destruct (N.ltb_spec rev 4), (N.ltb_spec rev 5); cbn [negb]; try reflexivity; lia. Qed.
  Lemma static_small : static_reward rev <= 5 * 10 ^ 18.
  Proof. unfold static_reward. destruct (_ <? _); [lia|]. destruct (_ <? _); lia. Qed.
  Lemma ommer_reward_eq o : hd_number o < hd_number header -> hd_number header <= hd_number o + 8 -> hd_number header < 2 ^ 64 ->
    mul256 (sub64 (add64 8 (hd_number o)) (hd_number header)) (block_reward rev) / 8 = rewardo o.
  Proof.
    intros H1 H2 H3. rewrite block_reward_eq. unfold rewardo, ommer_share.
    assert (E : sub64 (add64 8 (hd_number o)) (hd_number header) = 8 - (hd_number header - hd_number o)).
    { unfold sub64, add64. destruct (N.lt_ge_cases (8 + hd_number o) (2 ^ 64)) as [A|A].
      - rewrite (N.mod_small (8 + _)) by exact A. replace (8 + hd_number o + 2 ^ 64 - hd_number header) with (8 - (hd_number header - hd_number o) + 1 * 2 ^ 64) by lia. rewrite N.mod_add by discriminate. apply N.mod_small. lia.
      - replace (8 + hd_number o) with (8 + hd_number o - 2 ^ 64 + 1 * 2 ^ 64) by lia. rewrite N.mod_add by discriminate. rewrite (N.mod_small (8 + hd_number o - 2 ^ 64)) by lia.
        replace (8 + hd_number o - 2 ^ 64 + 2 ^ 64 - hd_number header) with (8 - (hd_number header - hd_number o)) by lia. apply N.mod_small. lia. }
    rewrite E. pose proof static_small. unfold mul256. rewrite N.mod_small; [reflexivity|]. apply N.le_lt_trans with (8 * (5 * 10 ^ 18)); [|reflexivity]. apply N.mul_le_mono; lia.
  Qed.
  Definition osum (ommers : list block_header) : N := fold_right (fun o n => rewardo o + n) 0 ommers.
  Definition oto (ommers : list block_header) (x : N) : N := fold_right (fun o n => (if be_to_N (hd_beneficiary o) =? x then rewardo o else 0) + n) 0 ommers.
  Lemma ommers_ok ommers : forall m s tt, Forall (fun o => hd_number o < hd_number header /\ hd_number header <= hd_number o + 8) ommers -> hd_number header < 2 ^ 64 ->
    total (bal s) tt -> tt + osum ommers < 2 ^ 256 -> m + N.of_nat (length ommers) * (static_reward rev / 32) < 2 ^ 256 ->
    let '(m', s') := fold_left (fun '(miner, s) o =>
        let ommer_reward := mul256 (sub64 (add64 8 (hd_number o)) (hd_number header)) (block_reward rev) / 8 in
        (add256 miner (block_reward rev / 32), add_to_balance db s (be_to_N (hd_beneficiary o)) ommer_reward)) ommers (m, s) in
    m' = m + N.of_nat (length ommers) * (static_reward rev / 32) /\ (forall x, bal s' x = bal s x + oto ommers x) /\ total (bal s') (tt + osum ommers) /\ kept db s s'.
  Proof.
    induction ommers as [|o l IH]; intros m s tt Ho Hn T Ht Hm.
    - cbn. split; [lia|]. split; [intros; lia|]. split; [now rewrite N.add_0_r|apply kept_refl].
    - cbn [fold_left]. apply Forall_cons_iff in Ho as ((H1 & H2) & Ho). rewrite (ommer_reward_eq o H1 H2 Hn). cbv zeta.
      cbn [osum fold_right] in Ht. fold (osum l) in Ht. cbn [length] in Hm. rewrite block_reward_eq. rewrite Nat2N.inj_succ in Hm.
      destruct (add_total db Hdb s (be_to_N (hd_beneficiary o)) (rewardo o) tt T ltac:(lia)) as (K & B & T1).
      assert (Ea : add256 m (static_reward rev / 32) = m + static_reward rev / 32) by (unfold add256; apply N.mod_small; lia). rewrite Ea.
      specialize (IH (m + static_reward rev / 32) (add_to_balance db s (be_to_N (hd_beneficiary o)) (rewardo o)) (tt + rewardo o) Ho Hn T1 ltac:(lia) ltac:(lia)).
      rewrite block_reward_eq in IH.
      match goal with |- let '(_, _) := ?f in _ => destruct f as [m' s'] end. destruct IH as (Em & B' & T' & K'). cbn [osum fold_right length]. fold (osum l).
      rewrite Nat2N.inj_succ. split; [lia|]. split; [|split; [replace (tt + (rewardo o + osum l)) with (tt + rewardo o + osum l) by lia; exact T'|eapply kept_trans; eassumption]].
      intros x. rewrite B', B, (N.eqb_sym x). change (oto (o :: l) x) with ((if be_to_N (hd_beneficiary o) =? x then rewardo o else 0) + oto l x). clear. remember (rewardo o) as y. destruct (_ =? x); lia.
  Qed.
  Theorem rewards_ok ommers s tt : Forall (fun o => hd_number o < hd_number header /\ hd_number header <= hd_number o + 8) ommers -> hd_number header < 2 ^ 64 ->
    total (balance_of db s) tt -> tt + all_rewards rev header ommers < 2 ^ 256 ->
    let s' := apply_rewards db rev header ommers s in
    (forall x, balance_of db s' x = balance_of db s x + reward_to rev header ommers x) /\ total (balance_of db s') (tt + all_rewards rev header ommers)
    /\ (forall x, nonce_of db s' x = nonce_of db s x) /\ (forall x, code_hash_of db s' x = code_hash_of db s x).
  Proof.
    intros Ho Hn T Ht. cbv zeta. apply total_balance in T. unfold all_rewards in *. change (fold_right _ 0 ommers) with (osum ommers) in *.
    unfold apply_rewards. rewrite block_reward_eq. pose proof (ommers_ok ommers (static_reward rev) s tt Ho Hn T ltac:(lia) ltac:(lia)) as X. rewrite block_reward_eq in X. revert X.
    match goal with |- context[fold_left ?f ?l ?a] => set (F := fold_left f l a) end. destruct F as [m' s1]. intros (-> & B & T1 & K).
    destruct (add_total db Hdb s1 (beneficiary header) (static_reward rev + N.of_nat (length ommers) * (static_reward rev / 32)) _ T1 ltac:(lia)) as (K2 & B2 & T2).
    destruct (kept_trans _ _ _ _ K K2) as (Kn & Kc & _).
    split; [|split; [apply total_balance; replace (tt + (osum ommers + (static_reward rev + N.of_nat (length ommers) * (static_reward rev / 32)))) with (tt + osum ommers + (static_reward rev + N.of_nat (length ommers) * (static_reward rev / 32))) by lia; exact T2|split]].
    - intros x. rewrite !balance_of_bal, B2, B. unfold reward_to. change (fold_right _ 0 ommers) with (oto ommers x). unfold beneficiary. rewrite (N.eqb_sym x). lia.
    - intros x. rewrite !nonce_of_nonce. apply Kn.
    - intros x. rewrite !code_hash_of_ch. apply Kc.
  Qed.
End Rewards.

Section Dao.
  Variable db : db_reader.
  Hypothesis Hdb : forall a k, read_storage db a 0 k = 0.
  Notation bal := (JournalProofs.bal db).
  Lemma dao_step s a tt : a <> kWithdraw -> total (bal s) tt -> tt < 2 ^ 256 ->
    let s' := let '(b, s) := get_balance db s a in set_balance db (add_to_balance db s kWithdraw b) a 0 in
    kept db s s' /\ (forall x, bal s' x = if x =? a then 0 else if x =? kWithdraw then bal s x + bal s a else bal s x) /\ total (bal s') tt.
  Proof.
    intros Ha T Ht. cbv zeta. destruct (get_balance db s a) as [b s1] eqn:E. destruct (get_balance_quiet _ _ _ _ _ E) as (Q & ->). destruct (kept_quiet _ _ _ Q) as (K1 & B1).
    destruct (add_ok db Hdb s1 kWithdraw (bal s a)) as (K2 & B2). destruct (set_bal_ok db Hdb (add_to_balance db s1 kWithdraw (bal s a)) a 0) as (K3 & B3).
    assert (B : forall x, bal (set_balance db (add_to_balance db s1 kWithdraw (bal s a)) a 0) x = if x =? a then 0 else if x =? kWithdraw then bal s x + bal s a else bal s x).
    { intros x. rewrite B3. destruct (x =? a); [reflexivity|]. rewrite B2. destruct (N.eqb_spec x kWithdraw) as [->|]; [|apply B1]. rewrite B1. apply N.mod_small.
      pose proof (total_moved _ _ a kWithdraw (bal s a) T (N.le_refl _)) as Tm. pose proof (total_le _ _ kWithdraw Tm) as L. unfold moved in L. destruct (N.eqb_spec a kWithdraw); [contradiction|].
      rewrite N.eqb_refl in L. destruct (N.eqb_spec kWithdraw a); [congruence|]. lia. }
    split; [eapply kept_trans; [exact K1|]; eapply kept_trans; eassumption|]. split; [exact B|].
    eapply total_ext; [|apply (total_moved _ _ a kWithdraw (bal s a) T (N.le_refl _))]. intros x. rewrite B. unfold moved. destruct (N.eqb_spec a kWithdraw); [contradiction|].
    destruct (N.eqb_spec x a) as [->|]; [destruct (N.eqb_spec a kWithdraw); [contradiction|lia]|]. reflexivity.
  Qed.
  Definition in_list (x : N) (l : list N) : bool := existsb (N.eqb x) l.
  Lemma dao_fold l : forall s tt, List.NoDup l -> ~ In kWithdraw l -> total (bal s) tt -> tt < 2 ^ 256 ->
    let s' := fold_left (fun s a => let '(b, s) := get_balance db s a in set_balance db (add_to_balance db s kWithdraw b) a 0) l s in
    kept db s s' /\ (forall x, bal s' x = if x =? kWithdraw then bal s x + sum (bal s) l else if in_list x l then 0 else bal s x) /\ total (bal s') tt.
  Proof.
    induction l as [|a l IH]; intros s tt Hn Hw T Ht; cbn zeta.
    - cbn. split; [apply kept_refl|]. split; [|exact T]. intros x. destruct (x =? kWithdraw); [lia|reflexivity].
    - apply List.NoDup_cons_iff in Hn as (Na & Hn). assert (Ha : a <> kWithdraw) by (intros ->; apply Hw; now left). assert (Hw' : ~ In kWithdraw l) by (intros X; apply Hw; now right).
      cbn [fold_left]. destruct (dao_step s a tt Ha T Ht) as (K1 & B1 & T1). cbv zeta in K1, B1, T1. set (s1 := let '(b, s) := get_balance db s a in _) in *.
      destruct (IH s1 tt Hn Hw' T1 Ht) as (K2 & B2 & T2). cbv zeta in *. split; [eapply kept_trans; eassumption|]. split; [|exact T2].
      intros x. rewrite B2. rewrite !B1. cbn [in_list existsb sum]. fold (in_list x l).
      assert (Es : sum (bal s1) l = sum (bal s) l). { apply sum_ext. intros y Hy. rewrite B1. destruct (N.eqb_spec y a) as [->|]; [contradiction|]. destruct (N.eqb_spec y kWithdraw) as [->|]; [contradiction|reflexivity]. }
      rewrite Es. destruct (N.eqb_spec x kWithdraw) as [->|Nx].
      + destruct (N.eqb_spec kWithdraw a); [congruence|]. lia.
      + destruct (x =? a); cbn [orb]; [now destruct (in_list x l)|reflexivity].
  Qed.
  Lemma children_nodup : List.NoDup kChildren /\ ~ In kWithdraw kChildren.
  Proof.
    assert (G : forall l, (fix nd l := match l with [] => true | a :: t => negb (in_list a t) && nd t end) l = true -> List.NoDup l).
    { induction l as [|a t IH]; [constructor|]. intros H. apply andb_true_iff in H as (A & B). constructor; [|now apply IH]. intros I. apply negb_true_iff in A. apply not_true_iff_false in A. apply A.
      apply existsb_exists. exists a. split; [exact I|apply N.eqb_refl]. }
    split; [apply G; vm_compute; reflexivity|]. intros I. assert (X : in_list kWithdraw kChildren = false) by (vm_compute; reflexivity). apply not_true_iff_false in X. apply X. apply existsb_exists. exists kWithdraw. split; [exact I|apply N.eqb_refl].
  Qed.
  Theorem dao_ok s tt : total (balance_of db s) tt -> tt < 2 ^ 256 ->
    let s' := transfer_balances db s in
    (forall x, balance_of db s' x = if x =? kWithdraw then balance_of db s x + sum (balance_of db s) kChildren else if in_list x kChildren then 0 else balance_of db s x)
    /\ total (balance_of db s') tt /\ (forall x, nonce_of db s' x = nonce_of db s x) /\ (forall x, code_hash_of db s' x = code_hash_of db s x).
  Proof.
    intros T Ht. cbv zeta. unfold transfer_balances. apply total_balance in T. destruct children_nodup as (Hn & Hw). generalize dependent kChildren. intros l Hn Hw. destruct (dao_fold l s tt Hn Hw T Ht) as ((Kn & Kc & _) & B & T'). cbv zeta in *.
    split; [|split; [now apply total_balance|split]].
    - intros x. rewrite !balance_of_bal, B. rewrite (sum_ext (balance_of db s) (bal s) l) by (intros; apply balance_of_bal). reflexivity.
    - intros x. rewrite !nonce_of_nonce. apply Kn.
    - intros x. rewrite !code_hash_of_ch. apply Kc.
  Qed.
End Dao.
