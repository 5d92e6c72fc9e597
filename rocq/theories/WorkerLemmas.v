(** The worker: final forms, and the schedules on which it fails. *)
From Verif Require Import Base WorkerModel WorkerSpec WorkerProofs.

Section Final.
  Variable K : nat.
  Definition in_budget (s : sys) : Prop := match th s with T_work _ n => (n <= K)%nat | _ => True end.
  Lemma budget s a n : reachable K s -> th s = T_work a n -> (n <= K)%nat.
  Proof.
    intros (ws & R) E. assert (X : in_budget s); [|unfold in_budget in X; now rewrite E in X]. clear E.
    eapply (run_invariant K in_budget); [|exact (I : in_budget initial)|exact R]. clear. unfold in_budget. intros [|] s s' H St; destruct St; cbn [th] in *; try assumption; try exact I; try lia.
  Qed.
  Lemma one_thread s w : reachable K s -> own s = O_spawn w -> th s = T_none \/ th s = T_done.
  Proof. intros R E. apply (reachable_fits K) in R as (F & _). rewrite E in F. tauto. Qed.
  Lemma stopped_means s : reachable K s -> own s <> O_terminate -> st s = kStopped -> th s = T_none \/ th s = T_done.
  Proof. intros R Ne E. apply (reachable_fits K) in R as (F & _). rewrite E in F. destruct (own s); try exact F; [|congruence]. tauto. Qed.
  Lemma kept s ws s' : reachable K s -> working (th s) -> kicked s = true -> run K s ws s' ->
    (kicked s' = true /\ working (th s')) \/ passes K s ws s' (fun x => th x = T_test) \/ passes K s ws s' (fun x => th x = T_end).
  Proof. intros R. apply kick_kept. now apply (reachable_fits K). Qed.
  Lemma woken s ws s' : reachable K s -> waiting (th s) -> kicked s = true -> run K s ws s' -> (3 <= thread_steps ws)%nat -> passes K s ws s' (fun x => exists b, answered (th x) b).
  Proof.
    intros R W Kk Rn L. apply wakes_up; [now apply (reachable_fits K)|auto|exact Rn|]. destruct (th s); cbn in W |- *; try tauto; lia.
  Qed.
  Lemma stopping s s1 ws s' : reachable K s -> own s = O_stop_kick true -> working (th s) \/ th s = T_end -> owner_step s s1 -> run K s1 ws s' -> (2 * K + 5 <= thread_steps ws)%nat ->
    passes K s1 ws s' (fun x => th x = T_done /\ own x = O_join /\ hd_ x = H_joinable).
  Proof.
    intros R O W St Rn L. pose proof (reachable_held K s R) as (Hh & _). pose proof (reachable_fits K s R) as (_ & _ & F3). rewrite O in F3. assert (Bd : forall a n, th s = T_work a n -> (n <= K)%nat) by (intros a n; now apply budget).
    assert (Ru : running (th s)) by (destruct W as [W| -> ]; [now apply working_running|split; discriminate]). specialize (Hh Ru). assert (Sp : st s = kStopping) by (destruct F3 as [F3|F3]; [exact F3|destruct Ru; congruence]).
    assert (E : s1 = mkSys (st s) true (th s) (hd_ s) O_join) by (destruct St; cbn [own] in O; try discriminate; injection O as ->; reflexivity). subst s1. apply stops_in_time; [|exact Rn|].
    - split; [reflexivity|]. split; [exact Hh|]. cbn [th st kicked]. destruct W as [W|W]; [|now rewrite W]. destruct (th s) as [| | |[[|]|] n| | | | |]; cbn in W; try tauto.
    - cbn [th]. destruct (th s) as [| | |[[|]|] n| | | | |]; cbn [bound]; try lia; specialize (Bd _ _ eq_refl); lia.
  Qed.

  (** ** Schedules *)
  Definition s_clear (o : opc) := mkSys kStarted false T_clear H_joinable o.
  (** start(true) has returned, and the thread has not yet cleared the flag. *)
  Lemma reach_clear o : (forall k t h, owner_step (mkSys kStarted k t h O_idle) (mkSys kStarted k t h o)) -> reachable K (s_clear o).
  Proof.
    intros H. exists [Owner; Owner; Owner; Thread; Owner; Owner]. eapply run_cons; [apply (call_start _ _ _ _ true)|]. eapply run_cons; [apply start_ok|]. eapply run_cons; [apply spawn; discriminate|]. eapply run_cons; [apply begin_ok|]. eapply run_cons; [apply poll_yes|]. eapply run_cons; [apply H|]. constructor.
  Qed.
  Definition asleep (s : sys) : Prop := waiting (th s) /\ kicked s = false.
  Lemma asleep_step s s' : asleep s -> thread_step K s s' -> asleep s' /\ st s' = st s /\ own s' = own s /\ hd_ s' = hd_ s.
  Proof. intros (W & E) St. unfold asleep. destruct St; cbn [th kicked st own hd_ waiting] in *; try tauto; try congruence; auto. Qed.
  Lemma asleep_joining s : asleep s -> own s = O_join -> hd_ s = H_joinable -> forever K s (fun x => own x = O_join /\ waiting (th x)).
  Proof.
    intros A O H ws s' R. assert (X : asleep s' /\ own s' = O_join /\ hd_ s' = H_joinable).
    { revert A O H. induction R as [s|s w s1 ws s2 St R IH]; intros A O H; [auto|]. destruct w; cbn [step] in St.
      - exfalso. destruct A as (A & _). destruct St; cbn [own hd_ th] in *; try discriminate; destruct A.
      - destruct (asleep_step s s1 A St) as (A' & _ & E & E2). apply IH; congruence || exact A'. }
    destruct X as ((X & _) & O' & _). auto.
  Qed.
  Lemma lost_kick : exists s0 s1 ws s2, reachable K s0 /\ st s0 = kStarted /\ own s0 = O_kick /\ owner_step s0 s1 /\ kicked s1 = true /\ own s1 = O_idle /\ run K s1 ws s2 /\ left_alone K s2 (fun x => waiting (th x)).
  Proof.
    exists (s_clear O_kick), (mkSys kStarted true T_clear H_joinable O_idle), [Thread; Thread], (mkSys kStarted false T_check H_joinable O_idle). split; [apply reach_clear; intros; apply call_kick|]. split; [reflexivity|]. split; [reflexivity|]. split; [apply kicks|]. split; [reflexivity|]. split; [reflexivity|]. split.
    - eapply run_cons; [apply (clear K _ _ 0); lia|]. eapply run_cons; [apply work_waits; discriminate|]. constructor.
    - intros ws s' F R. assert (A : asleep s'); [|apply A]. assert (A0 : asleep (mkSys kStarted false T_check H_joinable O_idle)) by (split; [exact I|reflexivity]). revert A0. induction R as [s|s w s1 ws s2 St R IH]; intros A; [exact A|]. inversion F as [|x y Fw Fs]; subst. apply IH; [exact Fs|]. now apply (asleep_step s s1 A St).
  Qed.
  Lemma lost_stop : exists s0 ws s1, reachable K s0 /\ st s0 = kStarted /\ own s0 = O_stop true /\ run K s0 ws s1 /\ forever K s1 (fun x => own x = O_join /\ waiting (th x)).
  Proof.
    exists (s_clear (O_stop true)), [Owner; Owner; Thread; Thread], (mkSys kStopping false T_check H_joinable O_join). split; [apply reach_clear; intros; apply call_stop|]. split; [reflexivity|]. split; [reflexivity|]. split.
    - eapply run_cons; [apply stop_ok|]. eapply run_cons; [apply stop_kicks|]. eapply run_cons; [apply (clear K _ _ 0); lia|]. eapply run_cons; [apply work_waits; discriminate|]. constructor.
    - apply asleep_joining; [split; [exact I|reflexivity]|reflexivity|reflexivity].
  Qed.
  Definition dying (x : sys) : Prop := asleep x /\ hd_ x = H_joinable /\ (own x = O_destroy /\ st x = kStarted \/ own x = O_destroy_store \/ own x = O_destroy_join).
  Lemma dying_step w a b : dying a -> step K w a b -> dying b.
  Proof.
    intros (A & Ha & C) St. unfold dying. destruct w; [|destruct (asleep_step a b A St) as (A' & E1 & E2 & E3); rewrite E1, E2, E3; auto]. unfold asleep in *. cbn [step] in St.
    destruct St; cbn [own st hd_ th kicked waiting] in *; try (exfalso; intuition congruence); intuition congruence.
  Qed.
  Lemma destroy_hangs s : own s = O_destroy -> st s = kStarted -> waiting (th s) -> kicked s = false -> hd_ s = H_joinable -> forever K s (fun x => own x <> O_destroyed).
  Proof.
    intros O S0 W Kk H ws s' R. assert (A : dying s') by (eapply (run_invariant K dying); [exact dying_step| |exact R]; unfold dying, asleep; auto).
    destruct A as (_ & _ & C). intuition congruence.
  Qed.
  Lemma destroy_hangs_reachable s : reachable K s -> own s = O_destroy -> st s = kStarted -> waiting (th s) -> kicked s = false -> forever K s (fun x => own x <> O_destroyed).
  Proof.
    intros R O S0 W Kk. apply destroy_hangs; auto. apply (reachable_held K s R). destruct (th s); cbn in W; try tauto; split; discriminate.
  Qed.
  Lemma destroyed_gone s : reachable K s -> own s = O_destroyed -> th s = T_none \/ th s = T_done.
  Proof. intros R O. pose proof (proj2 (reachable_held K s R) O) as H. unfold running in H. destruct (th s); auto; exfalso; apply H; split; discriminate. Qed.
  Lemma destroy_case : exists s, reachable K s /\ own s = O_destroy /\ st s = kStarted /\ waiting (th s) /\ kicked s = false /\ hd_ s = H_joinable.
  Proof.
    exists (mkSys kStarted false T_check H_joinable O_destroy). split; [|cbn; auto 6]. exists [Owner; Owner; Owner; Thread; Owner; Thread; Thread; Owner]. eapply run_cons; [apply (call_start _ _ _ _ true)|]. eapply run_cons; [apply start_ok|]. eapply run_cons; [apply spawn; discriminate|]. eapply run_cons; [apply begin_ok|]. eapply run_cons; [apply poll_yes|].
    eapply run_cons; [apply (clear K _ _ 0); lia|]. eapply run_cons; [apply work_waits; discriminate|]. eapply run_cons; [apply call_destroy|]. constructor.
  Qed.
  Definition spinning (x : sys) : Prop := own x = O_poll /\ st x = kStopped /\ th x = T_done.
  Lemma spinning_step w a b : spinning a -> step K w a b -> spinning b.
  Proof. intros (O & S0 & T) St. unfold spinning. destruct w; cbn [step] in St; destruct St; cbn [own st th] in *; try discriminate; auto. Qed.
  Lemma start_spins : exists s, reachable K s /\ own s = O_poll /\ forever K s (fun x => own x = O_poll).
  Proof.
    exists (mkSys kStopped false T_done H_joinable O_poll). split; [|split; [reflexivity|]].
    - exists [Owner; Owner; Owner; Thread; Thread; Thread; Thread]. eapply run_cons; [apply (call_start _ _ _ _ true)|]. eapply run_cons; [apply start_ok|]. eapply run_cons; [apply spawn; discriminate|]. eapply run_cons; [apply begin_ok|]. eapply run_cons; [apply (clear K _ _ 0); lia|]. eapply run_cons; [apply work_leaves|]. eapply run_cons; [apply ends|]. constructor.
    - intros ws s' R. assert (A : spinning s'); [|apply A]. eapply (run_invariant K spinning); [exact spinning_step| |exact R]. repeat split.
  Qed.
  (** The thread has ended by itself or after stop(false), and nobody joined it. *)
  Lemma unjoined_terminates s s1 : own s = O_destroy -> st s = kStopped -> hd_ s = H_joinable -> owner_step s s1 -> own s1 = O_terminate.
  Proof. intros O S0 H St. destruct St; cbn [own st hd_] in *; try discriminate; try congruence; reflexivity. Qed.
  Lemma unjoined_case : exists ws s, run K initial ([Owner; Owner; Owner; Thread; Owner; Thread; Thread; Owner; Owner; Owner] ++ ws) s /\ own s = O_destroy /\ st s = kStopped /\ hd_ s = H_joinable.
  Proof.
    exists [Thread; Thread; Thread; Thread; Owner], (mkSys kStopped false T_done H_joinable O_destroy). split; [|auto]. cbn [app]. eapply run_cons; [apply (call_start _ _ _ _ true)|]. eapply run_cons; [apply start_ok|]. eapply run_cons; [apply spawn; discriminate|]. eapply run_cons; [apply begin_ok|]. eapply run_cons; [apply poll_yes|].
    eapply run_cons; [apply (clear K _ _ 0); lia|]. eapply run_cons; [apply work_waits; discriminate|]. eapply run_cons; [apply (call_stop _ _ _ _ false)|]. eapply run_cons; [apply stop_ok|]. eapply run_cons; [apply stop_kicks|].
    eapply run_cons; [apply check_yes|]. eapply run_cons; [apply (stops K _ 0); lia|]. eapply run_cons; [apply work_leaves|]. eapply run_cons; [apply ends|]. eapply run_cons; [apply call_destroy|]. constructor.
  Qed.
  Lemma stop_unstarted : run K initial [Owner; Owner; Owner] (mkSys kStopped false T_none H_null O_undefined).
  Proof. eapply run_cons; [apply (call_stop _ _ _ _ true)|]. eapply run_cons; [apply stop_no; discriminate|]. eapply run_cons; [apply join_null|]. constructor. Qed.
  Lemma stop_ignored : exists s0 ws s1, reachable K s0 /\ st s0 = kStarting /\ own s0 = O_stop true /\ run K s0 ws s1 /\ forever K s1 (fun x => own x = O_join /\ waiting (th x)).
  Proof.
    exists (mkSys kStarting false T_begin H_joinable (O_stop true)), [Owner; Thread; Thread; Thread], (mkSys kStarted false T_check H_joinable O_join). split; [|split; [reflexivity|split; [reflexivity|split]]].
    - exists [Owner; Owner; Owner; Owner]. eapply run_cons; [apply (call_start _ _ _ _ false)|]. eapply run_cons; [apply start_ok|]. eapply run_cons; [apply spawn; discriminate|]. eapply run_cons; [apply call_stop|]. constructor.
    - eapply run_cons; [apply stop_no; discriminate|]. eapply run_cons; [apply begin_ok|]. eapply run_cons; [apply (clear K _ _ 0); lia|]. eapply run_cons; [apply work_waits; discriminate|]. constructor.
    - apply asleep_joining; [split; [exact I|reflexivity]|reflexivity|reflexivity].
  Qed.

  (** ** Cases *)
  Lemma kept_case : exists s, reachable K s /\ waiting (th s) /\ kicked s = true /\ own s = O_idle.
  Proof.
    exists (mkSys kStarted true T_sleep H_joinable O_idle). split; [|cbn; auto]. exists [Owner; Owner; Owner; Thread; Owner; Thread; Thread; Thread; Owner; Owner]. eapply run_cons; [apply (call_start _ _ _ _ true)|]. eapply run_cons; [apply start_ok|]. eapply run_cons; [apply spawn; discriminate|]. eapply run_cons; [apply begin_ok|]. eapply run_cons; [apply poll_yes|].
    eapply run_cons; [apply (clear K _ _ 0); lia|]. eapply run_cons; [apply work_waits; discriminate|]. eapply run_cons; [apply check_no|]. eapply run_cons; [apply call_kick|]. eapply run_cons; [apply kicks|]. constructor.
  Qed.
  Lemma stop_case : exists s s1, reachable K s /\ own s = O_stop_kick true /\ working (th s) /\ owner_step s s1.
  Proof.
    exists (mkSys kStopping false T_sleep H_joinable (O_stop_kick true)), (mkSys kStopping true T_sleep H_joinable O_join). split; [|split; [reflexivity|split; [exact I|apply (stop_kicks _ _ _ _ true)]]]. exists [Owner; Owner; Owner; Thread; Owner; Thread; Thread; Thread; Owner; Owner]. eapply run_cons; [apply (call_start _ _ _ _ true)|]. eapply run_cons; [apply start_ok|]. eapply run_cons; [apply spawn; discriminate|]. eapply run_cons; [apply begin_ok|]. eapply run_cons; [apply poll_yes|].
    eapply run_cons; [apply (clear K _ _ 0); lia|]. eapply run_cons; [apply work_waits; discriminate|]. eapply run_cons; [apply check_no|]. eapply run_cons; [apply call_stop|]. eapply run_cons; [apply stop_ok|]. constructor.
  Qed.
End Final.
