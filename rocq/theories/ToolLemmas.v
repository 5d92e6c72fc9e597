(** What the checking commands find out, in final form. *)
From Verif Require Import Base BaseFacts RlpSpec RlpModel RlpProofs BlockModel BlockSpec BlockProofs CodecLemmas UtilModel UtilProofs DbTable DbModel DbSpec DbProofs DbBlockProofs DbCases IndexModel ToolModel ToolSpec ToolProofs.
From Verif Require Import KeccakSpec KeccakCases EthashSpec EthashModel EthashProofs3 EthashLemmas EthashCases.

(** *** Transaction lookup *)
Lemma be8_app_inj n m a b : n < 2 ^ 64 -> m < 2 ^ 64 -> be_fixed 8 n ++ a = be_fixed 8 m ++ b -> n = m /\ a = b.
Proof. intros Ln Lm E. apply app_parts in E as (E & ->); [|now rewrite !be_fixed_length]. apply be8_inj in E; auto. Qed.
Lemma nth_small {A} (l : list A) i x : nth_error l i = Some x -> N.of_nat (length l) < 2 ^ 64 -> N.of_nat i < 2 ^ 64.
Proof. intros E L. assert (i < length l)%nat by (apply nth_error_Some; rewrite E; discriminate). lia. Qed.
Lemma tx_lookup_from_zero keccak d : wf_db d -> lookup_shapes d -> bodies_from_zero d ->
  exists l, check_tx_lookup keccak d = Done l /\ (l = [] <-> lookup_right keccak d).
Proof.
  intros W S Z. destruct (tx_lookup_exact keccak d W S) as (l & E & H). exists l. split; [exact E|]. rewrite H. split.
  - intros A n b (Ln & Wb & hash & Lh & I). apply In_nth_error in I as (i & En). pose proof (nth_small _ _ _ En (ls_few d S)) as Li.
    destruct (Z _ _ _ En) as (hash' & Lh' & Ek). apply be8_app_inj in Ek as (-> & _); [|assumption|assumption]. exact (A i _ b En Wb).
  - intros A i k b En Wb. pose proof (nth_small _ _ _ En (ls_few d S)) as Li. destruct (Z _ _ _ En) as (hash & Lh & ->).
    apply A. split; [exact Li|]. split; [exact Wb|]. exists hash. split; [exact Lh|]. exact (nth_error_In _ _ En).
Qed.
Lemma looked_up_fun d hash n m : wf_db d -> looked_up d hash n -> looked_up d hash m -> n = m.
Proof.
  intros W (v & Iv & <-) (w & Iw & <-). assert (O : ordered (d kTxLookup)) by (apply wf_single; [exact W|reflexivity]). now rewrite (ordered_fun _ _ _ _ O Iv Iw).
Qed.
Lemma tx_lookup_false_alarm keccak d i n hash b : wf_db d -> lookup_shapes d -> lookup_right keccak d ->
  nth_error (d kBlockBodies) i = Some (be_fixed 8 n ++ hash, RLP (stored_item b)) -> n < 2 ^ 64 -> length hash = 32%nat -> wf_stored b -> 0 < sb_count b -> n <> N.of_nat i ->
  exists l, check_tx_lookup keccak d = Done l /\ l <> [].
Proof.
  intros W S R En Ln Lh Wb C NE. destruct (tx_lookup_exact keccak d W S) as (l & E & H). exists l. split; [exact E|]. intros X.
  pose proof (proj1 H X i _ b En Wb) as A. assert (B : body_indexed keccak d b n).
  { apply R. split; [exact Ln|]. split; [exact Wb|]. exists hash. split; [exact Lh|]. exact (nth_error_In _ _ En). }
  destruct (A 0 C) as (v & Rv & Uv). destruct (B 0 C) as (w & Rw & Uw). rewrite (tx_record_fun d W _ _ _ Rv Rw) in Uv. apply NE. exact (looked_up_fun _ _ _ _ W Uw Uv).
Qed.

(** *** Hashed state *)
Section Hashed.
  Variable keccak : bytes -> bytes.
  Lemma check_accounts_ok hashed state : ordered hashed ->
    (check_accounts keccak hashed state = Done [] <-> forall a v, length a = 20%nat -> In (a, v) state -> In (keccak a, v) hashed).
  Proof.
    intros O. induction state as [|[k v] rest IH]; [cbn; split; [intros _ a v _ []|reflexivity]|].
    cbn [check_accounts]. destruct (Nat.eqb_spec (length k) 20) as [Lk|Nk]; cbn [negb].
    - destruct (lookup hashed (keccak k)) as [w|] eqn:Ew.
      + apply lookup_spec in Ew; [|exact O]. destruct (eqb_spec w v) as [->|NE]; cbn [negb].
        * rewrite IH. split; [intros H a x La [E|I]; [injection E as <- <-; exact Ew|auto]|]. intros H a x La I. apply H; [exact La|now right].
        * split; [discriminate|]. intros H. exfalso. apply NE. refine (ordered_fun _ _ _ _ O Ew _). apply H; [exact Lk|now left].
      + rewrite lookup_none in Ew by exact O. split; [discriminate|]. intros H. exfalso. apply (Ew v). apply H; [exact Lk|now left].
    - rewrite IH. split; [intros H a x La [E|I]; [injection E as <- <-; congruence|auto]|]. intros H a x La I. apply H; [exact La|now right].
  Qed.
  Lemma check_codes_ok hashed codes : ordered hashed ->
    (check_codes keccak hashed codes = Done [] <-> forall a i v, length a = 20%nat -> length i = 8%nat -> In (a ++ i, v) codes -> In (keccak a ++ i, v) hashed).
  Proof.
    intros O. induction codes as [|[k v] rest IH]; [cbn; split; [intros _ a i v _ _ []|reflexivity]|].
    cbn [check_codes]. destruct (Nat.eqb_spec (length k) 28) as [Lk|Nk]; cbn [negb].
    - assert (P : forall a i, length a = 20%nat -> length i = 8%nat -> k = a ++ i -> firstn 20 k = a /\ firstn 8 (skipn 20 k) = i).
      { intros a i La Li ->. rewrite firstn_app_exact by (symmetry; exact La). rewrite skipn_app_exact by (symmetry; exact La). rewrite firstn_all2 by lia. auto. }
      assert (Q : length (firstn 20 k) = 20%nat /\ length (firstn 8 (skipn 20 k)) = 8%nat /\ k = firstn 20 k ++ firstn 8 (skipn 20 k)).
      { rewrite !firstn_length, skipn_length. split; [lia|]. split; [lia|]. rewrite (firstn_all2 (n := 8) (skipn 20 k)) by (rewrite skipn_length; lia). symmetry. apply firstn_skipn. }
      cbv zeta. set (a0 := firstn 20 k) in *. set (i0 := firstn 8 (skipn 20 k)) in *. destruct Q as (La0 & Li0 & Ek).
      destruct (lookup hashed (keccak a0 ++ i0)) as [w|] eqn:Ew.
      + apply lookup_spec in Ew; [|exact O]. destruct (eqb_spec w v) as [->|NE]; cbn [negb].
        * rewrite IH. split.
          -- intros H a i x La Li [E|I]; [|auto]. injection E as E1 E2. destruct (P a i La Li E1) as (-> & ->). subst x. exact Ew.
          -- intros H a i x La Li I. apply H; [exact La|exact Li|now right].
        * split; [discriminate|]. intros H. exfalso. apply NE. refine (ordered_fun _ _ _ _ O Ew _). apply H; [exact La0|exact Li0|left; now rewrite <- Ek].
      + rewrite lookup_none in Ew by exact O. split; [destruct (check_codes keccak hashed rest); discriminate|]. intros H. exfalso. apply (Ew v). apply H; [exact La0|exact Li0|left; now rewrite <- Ek].
    - rewrite IH. split.
      + intros H a i x La Li [E|I]; [|auto]. injection E as E1 E2. exfalso. apply Nk. rewrite E1, app_length. lia.
      + intros H a i x La Li I. apply H; [exact La|exact Li|now right].
  Qed.
  Lemma check_storage_ok hashed state : check_storage hashed state = if existsb (fun e => Nat.eqb (length (fst e)) 20) state then Undefined else Done [].
  Proof. induction state as [|[k v] rest IH]; [reflexivity|]. cbn [check_storage existsb fst]. destruct (Nat.eqb (length k) 20); [reflexivity|exact IH]. Qed.

  Lemma hashstate_accounts d : wf_db d -> (check_accounts keccak (d kHashedAccounts) (d kPlainState) = Done [] <-> accounts_match keccak d).
  Proof.
    intros W. rewrite check_accounts_ok by (apply wf_single; [exact W|reflexivity]). unfold accounts_match, account_in. split; [intros H a v (L & I); auto|]. intros H a v L I. apply H. auto.
  Qed.
  Lemma hashstate_codes d : wf_db d -> (check_codes keccak (d kContractCode) (d kPlainContractCode) = Done [] <-> codes_match keccak d).
  Proof.
    intros W. rewrite check_codes_ok by (apply wf_single; [exact W|reflexivity]). unfold codes_match, code_in. split; [intros H a i v (L & Li & I); auto|]. intros H a i v L Li I. apply H. auto.
  Qed.
  Lemma hashstate_undefined d a v : wf_db d -> account_in d a v -> accounts_match keccak d -> check_hashstate keccak d = Undefined.
  Proof.
    intros W (La & I) M. unfold check_hashstate. rewrite (proj2 (hashstate_accounts d W) M). cbn [obind]. rewrite check_storage_ok.
    replace (existsb _ _) with true; [reflexivity|]. symmetry. apply existsb_exists. exists (a, v). split; [exact I|]. cbn [fst]. now rewrite La.
  Qed.
  Lemma hashstate_blind d : wf_db d -> (forall a v, ~ account_in d a v) -> (check_hashstate keccak d = Done [] <-> codes_match keccak d).
  Proof.
    intros W No. unfold check_hashstate. assert (M : accounts_match keccak d) by (intros a v X; exfalso; exact (No _ _ X)).
    rewrite (proj2 (hashstate_accounts d W) M). cbn [obind]. rewrite check_storage_ok.
    replace (existsb _ _) with false.
    2: { symmetry. apply not_true_is_false. intros X. apply existsb_exists in X as ((k & v) & I & L). apply Nat.eqb_eq in L. cbn [fst] in L. exact (No k v (conj L I)). }
    cbn [obind]. rewrite <- (hashstate_codes d W). destruct (check_codes _ _ _) as [l| |]; cbn [obind app]; split; congruence.
  Qed.
End Hashed.
