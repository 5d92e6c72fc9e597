(** Transactions and blocks: gas, fees and the supply. *)
From stdpp Require Import gmap.
From Coq Require Import ZArith.
From Verif Require Import Base BaseFacts RlpModel TxModel BlockModel TypesModel ChainModel StateModel JournalProofs EvmModel EvmSpec EvmProofs EvmLemmas ProcessorModel ProcessorSpec BlockHashProofs.

Section Proofs.
  Variable db : db_reader.
  Hypothesis Hdb : forall a k, read_storage db a 0 k = 0.
  Notation bal := (JournalProofs.bal db).
  Notation nonce := (JournalProofs.nonce db).
  Notation codehash := (JournalProofs.codehash db).
  Notation obj := (JournalProofs.obj db).

  (** Everything but balances. *)
  Definition kept (s s' : ibs) : Prop :=
    (forall x, nonce s' x = nonce s x) /\ (forall x, codehash s' x = codehash s x) /\ refund s' = refund s /\ self_destructs s' = self_destructs s /\ logs s' = logs s.
  Lemma kept_refl s : kept s s. Proof. repeat split. Qed.
  Lemma kept_trans a b c : kept a b -> kept b c -> kept a c.
  Proof. intros (A1 & A2 & A3 & A4 & A5) (B1 & B2 & B3 & B4 & B5). split; [intros; now rewrite B1|]. split; [intros; now rewrite B2|]. repeat split; congruence. Qed.
  Lemma kept_quiet s s' : quiet db s s' -> kept s s' /\ forall x, bal s' x = bal s x.
  Proof.
    intros (_ & Q & R & _ & L). split; [|intros x; unfold JournalProofs.bal; now rewrite (same_obj _ _ _ Q)].
    split; [intros x; unfold JournalProofs.nonce; now rewrite (same_obj _ _ _ Q)|]. split; [intros x; unfold JournalProofs.codehash; now rewrite (same_obj _ _ _ Q)|].
    split; [exact R|]. split; [apply Q|exact L].
  Qed.
  Lemma balance_ok s a f : let s' := touch (update_current db s a (fun c => with_balance c (f c))) a in
    kept s s' /\ (forall x, bal s' x = if x =? a then f (default account_default (o_current (obj s a))) else bal s x).
  Proof.
    intros s'. destruct (balance_ev db Hdb s a f) as (_ & B & Nn & C & R & _). fold s' in B, Nn, C, R.
    destruct (update_current_ev db Hdb s a (fun c => with_balance c (f c))) as (_ & _ & Rx); [reflexivity|].
    split; [split; [exact Nn|split; [exact C|split; [exact R|]]]|].
    - unfold s', touch. unfold restx in Rx. destruct (_ && _); cbn; split; congruence.
    - intros x. rewrite B. destruct (decide (x = a)) as [->|]; [now rewrite N.eqb_refl|]. destruct (N.eqb_spec x a); [contradiction|reflexivity].
  Qed.
  Lemma add_ok s a v : kept s (add_to_balance db s a v) /\ (forall x, bal (add_to_balance db s a v) x = if x =? a then (bal s a + v) mod 2 ^ 256 else bal s x).
  Proof. unfold add_to_balance. destruct (balance_ok s a (fun c => (a_balance c + v) mod 2 ^ 256)) as (A & B). split; [exact A|]. intros x. rewrite B. now rewrite default_balance. Qed.
  Lemma sub_ok s a v : kept s (subtract_from_balance db s a v) /\ (forall x, bal (subtract_from_balance db s a v) x = if x =? a then (bal s a + 2 ^ 256 - v) mod 2 ^ 256 else bal s x).
  Proof. unfold subtract_from_balance. destruct (balance_ok s a (fun c => (a_balance c + 2 ^ 256 - v) mod 2 ^ 256)) as (A & B). split; [exact A|]. intros x. rewrite B. now rewrite default_balance. Qed.
  Lemma set_bal_ok s a v : kept s (set_balance db s a v) /\ (forall x, bal (set_balance db s a v) x = if x =? a then v else bal s x).
  Proof. unfold set_balance. destruct (balance_ok s a (fun _ => v)) as (A & B). split; [exact A|]. exact B. Qed.

  (** Adding to a balance *)
  Lemma total_add f t a v : total f t -> total (fun x => if x =? a then f a + v else f x) (t + v).
  Proof. intros T. pose proof (total_le _ _ a T). pose proof (total_update f t a (f a + v) T) as H1. now replace (t - f a + (f a + v)) with (t + v) in H1 by lia. Qed.
  Lemma add_total s a v t : total (bal s) t -> t + v < 2 ^ 256 ->
    kept s (add_to_balance db s a v) /\ (forall x, bal (add_to_balance db s a v) x = bal s x + if x =? a then v else 0) /\ total (bal (add_to_balance db s a v)) (t + v).
  Proof.
    intros T Hv. destruct (add_ok s a v) as (A & B). split; [exact A|]. pose proof (total_le _ _ a T).
    assert (B' : forall x, bal (add_to_balance db s a v) x = bal s x + if x =? a then v else 0).
    { intros x. rewrite B. destruct (N.eqb_spec x a) as [->|]; [apply N.mod_small|]; lia. }
    split; [exact B'|]. eapply total_ext; [|apply (total_add _ _ a v T)]. intros x. cbv beta. rewrite B'. destruct (N.eqb_spec x a) as [->|]; lia.
  Qed.

  (** Destruction *)
  Lemma destruct_bal s a x : bal (destruct_ db s a) x = if x =? a then 0 else bal s x.
  Proof.
    unfold destruct_. destruct (get_object db (set_storages s (delete a (storages s))) a) as [o s1] eqn:E. apply get_object_spec in E as (O1' & _ & _ & _ & _ & _ & _ & _ & _ & _ & E1).
    assert (O1 : forall y, obj s1 y = obj s y) by (intros y; exact (O1' y)). clear O1'.
    unfold JournalProofs.bal. destruct o as [o|].
    - assert (Oi : forall y, obj (set_objects s1 (<[a := mkObj (o_initial o) None]> (objects s1))) y = if decide (y = a) then mkObj (o_initial o) None else obj s1 y) by (intros; apply obj_insert).
      rewrite Oi. destruct (decide (x = a)) as [->|]; [now rewrite N.eqb_refl|]. destruct (N.eqb_spec x a); [contradiction|]. now rewrite O1.
    - rewrite O1. destruct (N.eqb_spec x a) as [->|]; [|reflexivity]. change (obj s a) with (obj (set_storages s (delete a (storages s))) a). destruct E1 as (E1 & _). now rewrite E1.
  Qed.
  Lemma suicides_bal order : forall s x, bal (destruct_suicides db s order) x = if existsb (N.eqb x) order then 0 else bal s x.
  Proof.
    unfold destruct_suicides. induction order as [|a l IH]; intros s x; [reflexivity|]. cbn [fold_left existsb]. rewrite IH, destruct_bal. destruct (x =? a); cbn; [now destruct (existsb _ _)|reflexivity].
  Qed.
  Lemma touched_dead_bal order : forall s x, bal (destruct_touched_dead db s order) x = bal s x.
  Proof.
    unfold destruct_touched_dead. induction order as [|a l IH]; intros s x; [reflexivity|]. cbn [fold_left]. rewrite IH. clear IH.
    unfold is_dead. destruct (get_object db s a) as [o s1] eqn:E. pose proof (get_object_quiet _ _ _ _ _ E) as Q. apply kept_quiet in Q as (_ & Q).
    rewrite (cur_of_obj _ _ _ _ _ E). destruct (match o_current (obj s a) with Some _ => _ | None => _ end) eqn:D; [|apply Q].
    rewrite destruct_bal, Q. destruct (N.eqb_spec x a) as [->|]; [|reflexivity]. unfold JournalProofs.bal. destruct (o_current (obj s a)) as [c|]; [|reflexivity].
    apply andb_true_iff in D as (_ & D). apply N.eqb_eq in D. now rewrite D.
  Qed.
  Lemma destruct_rest s a : logs (destruct_ db s a) = logs s /\ touched (destruct_ db s a) = touched s.
  Proof.
    unfold destruct_. destruct (get_object db _ a) as [o s1] eqn:E. apply get_object_restx in E. unfold restx in E. cbn in E. destruct o; cbn; split; congruence.
  Qed.
  Lemma suicides_rest order : forall s, logs (destruct_suicides db s order) = logs s.
  Proof. unfold destruct_suicides. induction order as [|a l IH]; intros s; [reflexivity|]. cbn. rewrite IH. apply destruct_rest. Qed.
  Lemma touched_dead_rest order : forall s, logs (destruct_touched_dead db s order) = logs s.
  Proof.
    unfold destruct_touched_dead. induction order as [|a l IH]; intros s; [reflexivity|]. cbn [fold_left]. rewrite IH. unfold is_dead. destruct (get_object db s a) as [o s1] eqn:E.
    apply get_object_restx in E. unfold restx in E. destruct (match current_of o with Some _ => _ | None => _ end); [rewrite (proj1 (destruct_rest _ _))|]; congruence.
  Qed.
  Lemma total_zero f t l : List.NoDup l -> total f t -> total (fun x => if existsb (N.eqb x) l then 0 else f x) (t - sum f l) /\ sum f l <= t.
  Proof.
    revert t. induction l as [|a l IH]; intros t Hn T; [cbn; rewrite N.sub_0_r; split; [exact T|lia]|]. apply List.NoDup_cons_iff in Hn as (Na & Hn).
    destruct (IH t Hn T) as (T1 & L1). pose proof (total_update _ _ a 0 T1) as T2. pose proof (total_le _ _ a T1) as L2. cbv beta in *.
    assert (Ea : existsb (N.eqb a) l = false). { apply not_true_is_false. intros H. apply existsb_exists in H as (y & Hy & Ey). apply N.eqb_eq in Ey. now subst y. }
    rewrite Ea in *. cbn [sum existsb]. split; [|lia]. replace (t - (f a + sum f l)) with (t - sum f l - f a + 0) by lia. eapply total_ext; [|exact T2].
    intros x. cbv beta. destruct (x =? a); reflexivity.
  Qed.

  (** Substate operations before the EVM runs *)
  Lemma access_kept s a : kept s (snd (access_account s a)) /\ forall x, bal (snd (access_account s a)) x = bal s x.
  Proof.
    destruct (access_account s a) as [b s'] eqn:E. destruct (access_account_ev db _ _ _ _ E) as (_ & O). cbn [snd].
    assert (R : refund s' = refund s /\ self_destructs s' = self_destructs s /\ logs s' = logs s) by (unfold access_account in E; injection E as _ <-; destruct (bool_decide _); repeat split).
    split; [|intros x; unfold JournalProofs.bal; now rewrite O]. split; [intros x; unfold JournalProofs.nonce; now rewrite O|]. split; [intros x; unfold JournalProofs.codehash; now rewrite O|]. exact R.
  Qed.
  Lemma access_storage_kept s a k : kept s (snd (access_storage s a k)) /\ forall x, bal (snd (access_storage s a k)) x = bal s x.
  Proof.
    destruct (access_storage s a k) as [b s'] eqn:E. destruct (access_storage_ev db _ _ _ _ _ E) as (_ & O). cbn [snd].
    assert (R : refund s' = refund s /\ self_destructs s' = self_destructs s /\ logs s' = logs s) by (unfold access_storage in E; injection E as _ <-; destruct (bool_decide _); repeat split).
    split; [|intros x; unfold JournalProofs.bal; now rewrite O]. split; [intros x; unfold JournalProofs.nonce; now rewrite O|]. split; [intros x; unfold JournalProofs.codehash; now rewrite O|]. exact R.
  Qed.
  Lemma fold_kept {A} (f : ibs -> A -> ibs) l : (forall s a, kept s (f s a) /\ forall x, bal (f s a) x = bal s x) -> forall s, kept s (fold_left f l s) /\ forall x, bal (fold_left f l s) x = bal s x.
  Proof.
    intros H. induction l as [|a l IH]; intros s; [split; [apply kept_refl|reflexivity]|]. cbn. destruct (IH (f s a)) as (A1 & A2). destruct (H s a) as (B1 & B2).
    split; [eapply kept_trans; eassumption|]. intros x. now rewrite A2.
  Qed.
  Lemma warm_kept t s : kept s (warm_access_list t s) /\ forall x, bal (warm_access_list t s) x = bal s x.
  Proof.
    apply fold_kept. clear s. intros s e. destruct (access_kept s (be_to_N (ale_account e))) as (A1 & A2).
    destruct (fold_kept (fun s k => snd (access_storage s (be_to_N (ale_account e)) (be_to_N k))) (ale_storage_keys e) ltac:(intros; apply access_storage_kept) (snd (access_account s (be_to_N (ale_account e))))) as (B1 & B2).
    split; [eapply kept_trans; eassumption|]. intros x. now rewrite B2.
  Qed.
End Proofs.

Lemma gas_arith limit gl g0 q c : g0 <= limit -> gl <= limit - g0 -> limit < 2 ^ 63 -> 1 <= q ->
  let spent := sub64 limit gl in let r := N.min c (spent / q) in let gl' := add64 gl r in let used := sub64 limit gl' in
  spent = limit - gl /\ g0 <= spent <= limit /\ gl' = limit - used /\ used = spent - r /\ spent - spent / q <= used <= spent /\ spent / q <= spent.
Proof.
  intros Hg Hl Hb Hq. cbv zeta. assert (P : 2 ^ 63 < 2 ^ 64) by reflexivity. rewrite (sub64_le limit gl) by lia.
  assert (D : (limit - gl) / q <= limit - gl) by (apply N.div_le_upper_bound; nia).
  remember ((limit - gl) / q) as d eqn:Ed. clear Ed. assert (Hr : gl + N.min c d <= limit) by lia.
  assert (Ea : add64 gl (N.min c d) = gl + N.min c d) by (unfold add64; apply N.mod_small; lia). rewrite Ea. rewrite (sub64_le limit (gl + N.min c d)) by lia. lia.
Qed.

Lemma pay_arith limit used b p : used <= limit ->
  (limit - used) * (b + p) + used * p + used * b = limit * (b + p).
Proof. intros _H. replace limit with (used + (limit - used)) at 2 by lia. lia. Qed.
Lemma settle_arith limit used b p tt t2 : used <= limit -> limit * (b + p) <= tt -> tt < 2 ^ 256 -> t2 <= tt - limit * (b + p) ->
  (limit - used) * (b + p) < 2 ^ 256 /\ used * p < 2 ^ 256 /\ t2 + (limit - used) * (b + p) < 2 ^ 256 /\ t2 + (limit - used) * (b + p) + used * p < 2 ^ 256
  /\ t2 + (limit - used) * (b + p) + used * p + used * b = t2 + limit * (b + p).
Proof. intros H1 H2 H3 H4. pose proof (pay_arith limit used b p H1) as E. remember (limit * (b + p)) as A. remember ((limit - used) * (b + p)) as B. remember (used * p) as C. remember (used * b) as D. clear - H2 H3 H4 E. lia. Qed.

Lemma sub_wrap' b v : v <= b -> b < 2 ^ 256 -> (b + 2 ^ 256 - v) mod 2 ^ 256 = b - v.
Proof. intros H1 H2. rewrite <- (N.mod_small (b - v) (2 ^ 256)) by lia. replace (b + 2 ^ 256 - v) with (b - v + 1 * 2 ^ 256) by lia. apply N.mod_add. discriminate. Qed.

Section Transactions.
  Variable keccak : bytes -> bytes.
  Variable db : db_reader.
  Variable rev : N.
  Variable pre_gas : N -> bytes -> N -> N.
  Variable pre_run : N -> bytes -> option bytes.
  Variable block_hash : N -> bytes.
  Variable interp : message -> bytes -> prog.
  Variable fuel : nat.
  Variable iterate : gset N -> list N.
  Variable header : block_header.
  Notation etxn := (execute_txn keccak db rev pre_gas pre_run block_hash interp fuel).
  Notation exec := (execute_transaction keccak db rev pre_gas pre_run block_hash interp fuel iterate header).
  Notation execs := (execute_transactions keccak db rev pre_gas pre_run block_hash interp fuel iterate header).
  Notation bal := (JournalProofs.bal db).

  Lemma price_eq t : effective_gas_price t (base_fee header) = price header t.
  Proof. unfold effective_gas_price, priority_fee_per_gas, price, tip, base_fee, base_fee_of. rewrite N.add_comm. reflexivity. Qed.
  Lemma price_le t : base_fee_of header <= tx_max_fee t -> price header t <= tx_max_fee t.
  Proof. unfold price, tip. lia. Qed.

  Lemma validate_ok cum t s s0 : validate_transaction db header cum t s = (kOk, s0) ->
    quiet db s s0 /\ nonce db s (sender_of t) = tx_nonce t /\ tx_gas_limit t * tx_max_fee t + tx_value t <= bal s (sender_of t)
    /\ tx_gas_limit t <= sub64 (hd_gas_limit header) cum.
  Proof.
    unfold validate_transaction, sender_of. destruct (tx_from t) as [from|]; [|discriminate].
    destruct (get_nonce db s (be_to_N from)) as [n s1] eqn:E1. destruct (get_nonce_quiet _ _ _ _ _ E1) as (Q1 & ->).
    destruct (N.eqb_spec (nonce db s (be_to_N from)) (tx_nonce t)) as [En|]; [|discriminate]. cbn [negb].
    destruct (get_balance db s1 (be_to_N from)) as [b s2] eqn:E2. destruct (get_balance_quiet _ _ _ _ _ E2) as (Q2 & ->).
    destruct (N.ltb_spec (bal s1 (be_to_N from)) (tx_gas_limit t * tx_max_fee t + tx_value t)) as [|Hb]; [discriminate|].
    unfold available_gas. destruct (N.ltb_spec (sub64 (hd_gas_limit header) cum) (tx_gas_limit t)) as [|Hg]; [discriminate|].
    intros [= <-]. split; [eapply quiet_trans; eassumption|]. split; [exact En|]. destruct (kept_quiet _ _ _ Q1) as (_ & B1). rewrite B1 in Hb. split; assumption.
  Qed.

  Hypothesis Hdb : forall a k, read_storage db a 0 k = 0.

  Lemma prepare_ok t s : tx_gas_limit t * price header t <= bal s (sender_of t) -> bal s (sender_of t) < 2 ^ 256 ->
    charged db header t s (prepare db header t s).
  Proof.
    intros Hb Hlt. unfold prepare. change (tx_sender t) with (sender_of t). change (tx_recipient t) with (recipient_of t). rewrite price_eq.
    set (s1 := clear_journal_and_substate s). set (a := sender_of t) in *.
    destruct (access_kept db s1 a) as (K2 & B2). set (s2 := snd (access_account s1 a)) in *.
    assert (Em : mul256 (tx_gas_limit t) (price header t) = tx_gas_limit t * price header t) by (unfold mul256; apply N.mod_small; lia). rewrite Em.
    destruct (sub_ok db Hdb s2 a (tx_gas_limit t * price header t)) as (K3 & B3). set (s3 := subtract_from_balance db s2 a _) in *.
    assert (B23 : forall x, bal s3 x = if x =? a then bal s x - tx_gas_limit t * price header t else bal s x).
    { intros x. rewrite B3. rewrite !B2. change (bal s1) with (bal s). destruct (N.eqb_spec x a) as [->|]; [|reflexivity]. now apply sub_wrap'. }
    set (s4 := match recipient_of t with Some to => _ | None => s3 end).
    assert (G4 : (forall x, bal s4 x = bal s3 x) /\ (forall x, nonce db s4 x = if (x =? a) && (match tx_to t with Some _ => true | None => false end) then (tx_nonce t + 1) mod 2 ^ 64 else nonce db s3 x)
      /\ (forall x, codehash db s4 x = codehash db s3 x) /\ refund s4 = refund s3 /\ self_destructs s4 = self_destructs s3 /\ logs s4 = logs s3).
    { subst s4. unfold recipient_of. destruct (tx_to t) as [to|].
      - destruct (access_kept db s3 (be_to_N to)) as ((N4 & C4 & R4 & S4 & L4) & B4). set (s5 := snd (access_account s3 (be_to_N to))) in *.
        destruct (set_nonce_ev db Hdb s5 a (add64 (tx_nonce t) 1)) as (_ & B5 & N5 & C5 & R5).
        destruct (update_current_ev db Hdb s5 a (fun c => with_nonce c (add64 (tx_nonce t) 1))) as (_ & _ & Rx); [reflexivity|]. unfold restx in Rx. unfold set_nonce in *.
        split; [intros x; now rewrite B5|]. split; [|split; [intros x; now rewrite C5|repeat split; congruence]].
        intros x. rewrite N5. rewrite andb_true_r. destruct (decide (x = a)) as [->|]; [now rewrite N.eqb_refl|]. destruct (N.eqb_spec x a); [contradiction|]. apply N4.
      - split; [reflexivity|]. split; [intros x; now rewrite andb_false_r|]. repeat split. }
    destruct G4 as (B4 & N4 & C4 & R4 & S4 & L4). clearbody s4. destruct (warm_kept db t s4) as ((N6 & C6 & R6 & S6 & L6) & B6).
    destruct K2 as (N2 & C2 & R2 & S2 & L2). destruct K3 as (N3 & C3 & R3 & S3 & L3).
    constructor.
    - intros x. rewrite !balance_of_bal, B6, B4. apply B23.
    - intros x. rewrite !nonce_of_nonce, N6, N4, N3, N2. reflexivity.
    - intros x. rewrite !code_hash_of_ch, C6, C4, C3, C2. reflexivity.
    - rewrite R6, R4, R3, R2. reflexivity.
    - rewrite S6, S4, S3, S2. reflexivity.
    - rewrite L6, L4, L3, L2. reflexivity.
  Qed.

  Variable strict : bool.
  Hypothesis Hlaw : lawful strict interp.
  Hypothesis Hfuel : (1024 <= fuel)%nat.
  Hypothesis Hiter : forall X, Permutation (iterate X) (elements X).

  Lemma iterate_nodup X : List.NoDup (iterate X).
  Proof. eapply Permutation_NoDup; [symmetry; apply Hiter|]. apply NoDup_ListNoDup, NoDup_elements. Qed.
  Lemma iterate_in X x : existsb (N.eqb x) (iterate X) = bool_decide (x ∈ X).
  Proof.
    assert (E : In x (iterate X) <-> x ∈ X) by (rewrite <- elem_of_elements, elem_of_list_In; split; apply Permutation_in; [|symmetry]; apply Hiter).
    destruct (existsb (N.eqb x) (iterate X)) eqn:Ex.
    - apply existsb_exists in Ex as (y & Hy & Ey). apply N.eqb_eq in Ey. subst y. symmetry. now apply bool_decide_eq_true, E.
    - symmetry. apply bool_decide_eq_false. intros H. apply E in H. apply not_true_iff_false in Ex. apply Ex, existsb_exists. exists x. split; [exact H|apply N.eqb_refl].
  Qed.

  Definition g0_of (t : transaction) : N := intrinsic_gas t (EVMC_HOMESTEAD <=? rev) (EVMC_ISTANBUL <=? rev).

  Theorem transaction_ok cum t s s0 tt : hd_gas_limit header < 2 ^ 63 -> cum <= hd_gas_limit header -> prevalidated rev header t ->
    validate_transaction db header cum t s = (kOk, s0) -> total (balance_of db s) tt -> tt < 2 ^ 256 ->
    exists s1 r s2 used rc s', charged db header t s s1
      /\ etxn (recipient_of t) (sender_of t) (tx_gas_limit t - g0_of t) (tx_data t) (tx_value t) s1 = Returns r s2
      /\ exec cum t s0 = Some (rc, cum + used, s')
      /\ (let spent := tx_gas_limit t - Z.to_N (r_gas r) in
          g0_of t <= spent <= tx_gas_limit t /\ spent - spent / refund_quotient rev <= used <= spent
          /\ (refund_counter rev s2 < 2 ^ 64 -> used = spent - N.min (refund_counter rev s2) (spent / refund_quotient rev)))
      /\ cum + used <= hd_gas_limit header
      /\ rc = mkReceipt (tx_typ t) (is_success (r_status r)) (cum + used) (logs_bloom keccak (logs s2)) (logs s2)
      /\ (forall x, balance_of db s' x = if bool_decide (x ∈ self_destructs s2) then 0
            else balance_of db s2 x + (if x =? sender_of t then (tx_gas_limit t - used) * price header t else 0)
                 + (if x =? be_to_N (hd_beneficiary header) then used * tip header t else 0))
      /\ exists tt', total (balance_of db s') tt' /\ tt' + used * base_fee_of header <= tt
           /\ (strict = true -> self_destructs s2 = ∅ -> tt' + used * base_fee_of header = tt).
  Proof.
    intros Hh Hc Hpv Hv T Ht. destruct Hpv as [_ Hbf Hi _]. fold (g0_of t) in Hi.
    destruct (validate_ok cum t s s0 Hv) as (Q & _ & Hbal & Hlim). rewrite (sub64_le _ cum Hc) in Hlim by (eapply N.lt_trans; [exact Hh|reflexivity]).
    apply total_balance in T. destruct (kept_quiet _ _ _ Q) as (K0 & B0). assert (T0 : total (bal s0) tt) by (eapply total_ext; [|exact T]; intros; now rewrite B0).
    assert (Hbf' : base_fee_of header <= tx_max_fee t) by (unfold base_fee_of; destruct (hd_base_fee header); [exact Hbf|lia]).
    pose proof (price_le t Hbf') as Hp. set (P := price header t) in *. set (limit := tx_gas_limit t) in *. set (from := sender_of t) in *.
    assert (HlP : limit * P <= bal s0 from) by (rewrite B0; nia).
    pose proof (total_le _ _ from T0) as Lf.
    pose proof (prepare_ok t s0 HlP ltac:(fold from; lia)) as Ch. set (s1 := prepare db header t s0) in *.
    destruct (txn_ok keccak db rev pre_gas pre_run block_hash interp strict Hdb Hlaw fuel (recipient_of t) from (limit - g0_of t) (tx_data t) (tx_value t) s1) as (r & s2 & E & (_ & F) & Gb & _);
      [eapply N.le_lt_trans; [|exact Hh]; lia|exact Hfuel|].
    assert (T1 : total (bal s1) (tt - limit * P)).
    { pose proof (total_update _ _ from (bal s0 from - limit * P) T0) as Tx. replace (tt - limit * P) with (tt - bal s0 from + (bal s0 from - limit * P)) by lia.
      eapply total_ext; [|exact Tx]. intros x. cbv beta. rewrite <- (balance_of_bal db s1), (ch_balance _ _ _ _ _ Ch x), balance_of_bal. fold from. destruct (N.eqb_spec x from) as [->|]; reflexivity. }
    destruct (F (tt - limit * P) ltac:(lia) T1) as (t2 & T2 & Le2 & Eq2).
    set (gl := Z.to_N (r_gas r)). assert (Hgl : gl <= limit - g0_of t) by (subst gl; lia).
    assert (Eu : to_u64 (r_gas r) = gl).
    { unfold to_u64, gl. destruct (Z.leb_spec 0 (r_gas r)); [|lia]. f_equal. apply Z.mod_small. split; [lia|]. assert (Z.of_N (limit - g0_of t) < 2 ^ 63)%Z by (assert (Z.of_N limit < Z.of_N (2 ^ 63))%Z by lia; change (Z.of_N (2 ^ 63)) with (2 ^ 63)%Z in *; lia). lia. }
    set (q := if EVMC_LONDON <=? rev then kMaxRefundQuotientLondon else kMaxRefundQuotientFrontier).
    assert (Eq : refund_quotient rev = q) by (unfold refund_quotient, q; rewrite N.leb_antisym; destruct (rev <? EVMC_LONDON); reflexivity).
    set (c := if rev <? EVMC_LONDON then add64 (refund s2) (mul64 kRSelfDestruct (N.of_nat (size (self_destructs s2)))) else refund s2).
    assert (Ec : refund_counter rev s2 < 2 ^ 64 -> c = refund_counter rev s2).
    { unfold refund_counter, c. destruct (rev <? EVMC_LONDON); [|lia]. intros Hs. unfold add64, mul64, kRSelfDestruct. rewrite (N.mod_small (24000 * _)) by lia. apply N.mod_small. lia. }
    destruct (gas_arith limit gl (g0_of t) q c Hi Hgl ltac:(eapply N.le_lt_trans; [|exact Hh]; lia) ltac:(unfold q; destruct (_ <=? _); discriminate)) as (Es & Hsp & El & Eus & Hus & Hdq). cbv zeta in *.
    set (spent := sub64 limit gl) in *. set (gl' := add64 gl (N.min c (spent / q))) in *. set (used := sub64 limit gl') in *.
    assert (Hul : used <= limit) by (clear - Hus Hsp; lia).
    assert (Etip : priority_fee_per_gas t (base_fee header) = tip header t) by reflexivity.
    assert (HlPt : limit * P <= tt) by (clear - HlP Lf; lia).
    destruct (settle_arith limit used (base_fee_of header) (tip header t) tt t2 Hul HlPt Ht Le2) as (A1 & A2 & A3 & A4 & A5). change (base_fee_of header + tip header t) with P in *.
    destruct (add_total db Hdb s2 from ((limit - used) * P) t2 T2 A3) as (K3 & B3 & T3). set (s3 := add_to_balance db s2 from ((limit - used) * P)) in *.
    destruct (add_total db Hdb s3 (beneficiary header) (used * tip header t) _ T3 A4) as (K4 & B4 & T4). set (s4 := add_to_balance db s3 (beneficiary header) (used * tip header t)) in *.
    assert (Sui : self_destructs s4 = self_destructs s2) by (destruct K3 as (_ & _ & _ & X3 & _); destruct K4 as (_ & _ & _ & X4 & _); congruence).
    assert (Lg : logs s4 = logs s2) by (destruct K3 as (_ & _ & _ & _ & X3); destruct K4 as (_ & _ & _ & _ & X4); congruence).
    set (s5 := destruct_suicides db s4 (iterate (self_destructs s4))) in *.
    set (s6 := if EVMC_SPURIOUS_DRAGON <=? rev then destruct_touched_dead db s5 (iterate (touched s5)) else s5).
    set (s7 := finalize_transaction s6).
    assert (B7 : forall x, bal s7 x = if bool_decide (x ∈ self_destructs s2) then 0 else bal s4 x).
    { intros x. change (bal s7 x) with (bal s6 x). assert (E6 : bal s6 x = bal s5 x) by (unfold s6; destruct (EVMC_SPURIOUS_DRAGON <=? rev); [apply touched_dead_bal|reflexivity]). rewrite E6.
      unfold s5. rewrite suicides_bal, Sui, iterate_in. reflexivity. }
    assert (L7 : logs s7 = logs s2).
    { change (logs s7) with (logs s6). rewrite <- Lg. transitivity (logs s5); [unfold s6; destruct (EVMC_SPURIOUS_DRAGON <=? rev); [apply touched_dead_rest|reflexivity]|apply suicides_rest]. }
    exists s1, r, s2, used, (mkReceipt (tx_typ t) (is_success (r_status r)) (cum + used) (logs_bloom keccak (logs s2)) (logs s2)), s7.
    split. { destruct Ch as [C1 C2 C3 C4 C5 C6]. destruct K0 as (Kn & Kc & _). constructor; auto.
      - intros x. rewrite C1, !balance_of_bal, B0. reflexivity.
      - intros x. rewrite C2, !nonce_of_nonce, Kn. reflexivity.
      - intros x. rewrite C3, !code_hash_of_ch, Kc. reflexivity. }
    split; [exact E|]. split.
    { unfold execute_transaction. fold s1. fold (g0_of t). fold from. change (tx_recipient t) with (recipient_of t). change (tx_sender t) with from. fold limit.
      assert (Eg : sub64 limit (g0_of t mod 2 ^ 64) = limit - g0_of t).
      { assert (P64 : 2 ^ 63 < 2 ^ 64) by reflexivity. assert (Hl64 : limit < 2 ^ 64) by (clear - Hlim Hh P64; lia). rewrite (N.mod_small (g0_of t)) by (eapply N.le_lt_trans; eassumption). apply sub64_le; assumption. }
      rewrite Eg, E. unfold refund_gas. rewrite Eu. fold limit. fold c. fold q. fold spent. fold gl'. rewrite price_eq. fold P. change (tx_sender t) with from.
      assert (Em1 : mul256 gl' P = (limit - used) * P) by (unfold mul256; rewrite El; apply N.mod_small; exact A1). rewrite Em1. fold s3. fold used.
      assert (Em2 : mul256 used (tip header t) = used * tip header t) by (unfold mul256; apply N.mod_small; exact A2). rewrite Etip, Em2. fold s4. fold s5. fold s6. fold s7.
      assert (Ea : add64 cum used = cum + used) by (unfold add64; apply N.mod_small; assert (P64 : 2 ^ 63 < 2 ^ 64) by reflexivity; clear - Hul Hlim Hc Hh P64; lia). rewrite Ea, L7. reflexivity. }
    split. { rewrite Eq. fold gl. rewrite <- Es. split; [exact Hsp|]. split; [exact Hus|]. intros Hcc. rewrite <- (Ec Hcc). exact Eus. }
    split; [clear - Hul Hlim Hc; lia|]. split; [reflexivity|]. split.
    { intros x. rewrite !balance_of_bal, B7. destruct (bool_decide _); [reflexivity|]. rewrite B4, B3. unfold beneficiary. reflexivity. }
    destruct (total_zero db Hdb _ _ (iterate (self_destructs s2)) (iterate_nodup _) T4) as (T7 & L7').
    exists (t2 + (limit - used) * P + used * tip header t - sum (bal s4) (iterate (self_destructs s2))). split; [|split].
    - apply total_balance. eapply total_ext; [|exact T7]. intros x. cbv beta. rewrite B7, iterate_in. reflexivity.
    - clear - A5 L7' Le2 HlPt. remember (limit * P) as X1. remember ((limit - used) * P) as X2. remember (used * tip header t) as X3. remember (used * base_fee_of header) as X4. lia.
    - intros Hst Hse. rewrite Hse. specialize (Eq2 Hst). assert (Ei : iterate ∅ = []). { pose proof (Hiter ∅) as Hp0. rewrite elements_empty in Hp0. symmetry in Hp0. now apply Permutation_nil in Hp0. }
      rewrite Ei. cbn [sum]. rewrite N.sub_0_r, A5, Eq2. clear - HlPt. lia.
  Qed.

End Transactions.
