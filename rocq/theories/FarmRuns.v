(** The farm: the final forms, and interleavings that go wrong. *)
From Coq Require Import Strings.String Permutation Sorting.Sorted.
From Verif Require Import Base BaseFacts TxModel BlockModel ChainModel DbTable DbModel DbSpec DbProofs DbBlockProofs EtlModel EtlSpec EtlProofs EtlLemmas UnwindProofs UnwindProofs2 HashStateModel HashStateProofs FarmModel FarmSpec FarmProofs FarmProofs2 FarmLemmas FarmFinal.
Open Scope list_scope.
Open Scope N_scope.

(** ** Interleavings *)
Section Go.
  Variable keccak : bytes -> bytes.
  Variable recover : bytes -> bytes -> bool -> option bytes.
  Variable size : N.
  Variable max_workers : nat.
  Variable headers : list bytes.
  Notation main_step := (main_step max_workers E_finish).
  Notation worker_step := (worker_step keccak recover size).
  Notation run := (run keccak recover size max_workers E_finish).

  Definition one (w : worker) q n stop next col m : farm := mkFarm [w] q n stop next headers col m.
  Lemma main_to f f1 f2 : run f f1 -> main_step f1 f2 -> run f f2.
  Proof. apply run_main. Qed.
  Lemma worker_to f f1 f2 : run f f1 -> worker_step 0 f1 f2 -> run f f2.
  Proof. apply run_worker. Qed.
  Lemma nobody P : none_with P [].
  Proof. intros w []. Qed.
  (** The first worker is there and has not begun. *)
  Lemma go_new b todo : run (initial headers (b :: todo)) (one new_worker [] 0 false 0 [] (M_scan b todo)).
  Proof.
    eapply main_to; [eapply main_to; [apply run_nil|]|].
    - eapply (m_enter max_workers E_finish); [reflexivity|reflexivity].
    - eapply (m_new max_workers E_finish); [reflexivity|apply nobody|apply nobody|right; reflexivity].
  Qed.
  Lemma first_idle w : w_status w = Idle -> first_with (fun s => s = Idle) [w] 0.
  Proof. intros E. exists w. split; [reflexivity|]. split; [exact E|]. intros j v L. lia. Qed.
  (** It has begun to wait, and has its batch. *)
  Lemma go_set b todo : run (initial headers (b :: todo)) (one (mkWorker Working true (Some b) 0 [] W_wait) [] 0 false 1 [] (M_next todo)).
  Proof.
    eapply main_to; [eapply worker_to; [apply go_new|]|].
    - eapply w_clears; [reflexivity|reflexivity].
    - exact (m_set_work max_workers E_finish (one (mkWorker Idle false None 0 [] W_wait) [] 0 false 0 [] (M_scan b todo)) b todo 0 _ eq_refl (first_idle (mkWorker Idle false None 0 [] W_wait) eq_refl) eq_refl).
  Qed.
  Lemma go_ready b todo rs : work keccak recover size b = Ready rs -> run (initial headers (b :: todo)) (one (mkWorker ResultsReady false (Some b) 0 rs W_signal) [] 0 false 1 [] (M_next todo)).
  Proof. intros E. eapply worker_to; [apply go_set|]. exact (w_ready keccak recover size 0 (one (mkWorker Working true (Some b) 0 [] W_wait) [] 0 false 1 [] (M_next todo)) _ b rs eq_refl eq_refl eq_refl eq_refl E). Qed.
  (** Another batch: the farm throws. *)
  Lemma go_throw b b2 todo rs : work keccak recover size b = Ready rs -> exists f, run (initial headers (b :: b2 :: todo)) f /\ f_main f = M_throw.
  Proof.
    intros E. eexists. split; [|shelve]. eapply main_to; [eapply main_to; [eapply main_to; [apply (go_ready b (b2 :: todo) rs E)|]|]|].
    - eapply (m_enter max_workers E_finish); [reflexivity|reflexivity].
    - eapply (m_finished max_workers E_finish _ b2 todo 0); [reflexivity| |].
      + intros w [<-|[]]. discriminate.
      + eexists. split; [reflexivity|]. split; [left; reflexivity|]. intros j v L. lia.
    - eapply (m_did_fail max_workers E_finish); [reflexivity|]. apply round_empty. reflexivity.
      Unshelve. reflexivity.
  Qed.
  (** The only batch is ready, and not yet in the queue. *)
  Lemma go_lost b rs : work keccak recover size b = Ready rs -> exists f, run (initial headers [b]) f /\ f_main f = M_end /\ f_collected f = [].
  Proof.
    intros E. eexists. split; [|shelve]. eapply main_to; [eapply main_to; [eapply main_to; [apply (go_ready b [] rs E)|]|]|].
    - eapply (m_read max_workers E_finish); reflexivity.
    - eapply (m_waited max_workers E_finish); [reflexivity|]. intros w [<-|[]]. discriminate.
    - eapply (m_end max_workers E_finish); [reflexivity|]. apply round_empty. reflexivity.
      Unshelve. split; reflexivity.
  Qed.
  (** It is in the queue in time. *)
  Lemma go_all b rs : work keccak recover size b = Ready rs -> exists f1, run (initial headers [b]) f1 /\ f_main f1 = M_last /\ f_completed f1 = 1%nat /\ forall es hs, bufferize headers rs = Some (es, hs) -> exists f2, run f1 f2 /\ f_main f2 = M_end.
  Proof.
    intros E. eexists. split; [|shelve]. eapply main_to; [eapply main_to; [eapply worker_to; [apply (go_ready b [] rs E)|]|]|].
    - eapply w_pushes; [reflexivity|reflexivity|reflexivity].
    - eapply (m_read max_workers E_finish); reflexivity.
    - eapply (m_waited max_workers E_finish); [reflexivity|]. intros w [<-|[]]. discriminate.
      Unshelve. split; [reflexivity|]. split; [reflexivity|]. intros es hs B. eexists. split; [|shelve]. eapply main_to; [eapply main_to; [apply run_nil|]|].
      + eapply (m_last max_workers E_finish); [reflexivity|]. refine (round_pull _ 0 0 [] _ es hs _ _ _ _); [reflexivity|reflexivity|reflexivity|exact B].
      + eapply (m_end max_workers E_finish); [reflexivity|]. apply round_empty. reflexivity.
        Unshelve. reflexivity.
  Qed.
  (** The kick comes before the worker clears it. *)
  Lemma go_stuck b : exists f, run (initial headers [b]) f /\ f_main f = M_wait /\ forall f', run f f' -> f' = f.
  Proof.
    exists (one (mkWorker Working false (Some b) 0 [] W_wait) [] 0 false 1 [] M_wait). split; [|split; [reflexivity|]].
    - eapply main_to; [eapply worker_to; [eapply main_to; [apply go_new|]|]|].
      + exact (m_set_work max_workers E_finish (one new_worker [] 0 false 0 [] (M_scan b [])) b [] 0 _ eq_refl (first_idle new_worker eq_refl) eq_refl).
      + eapply w_clears; [reflexivity|reflexivity].
      + exact (m_read max_workers E_finish (one (mkWorker Working false (Some b) 0 [] W_wait) [] 0 false 1 [] (M_next [])) eq_refl).
    - intros f' R. remember (one (mkWorker Working false (Some b) 0 [] W_wait) [] 0 false 1 [] M_wait) as f eqn:Ef. induction R as [f|f f1 f2 R IH St|f f1 f2 i R IH St]; [reflexivity| |]; specialize (IH Ef); subst f1; rewrite Ef in St.
      + inversion St as [? ? ? M|? ? ? M|? M|? ? ? ? ? M|? ? ? ? M|? ? ? M|? ? ? M|? ? ? ? M|? ? ? ? M|? ? ? ? M|? ? M|? M N|? ? M|? ? ? M]; subst; try discriminate M; [reflexivity|]. exfalso. exact (N _ (or_introl eq_refl) eq_refl).
      + inversion St as [? ? X Y|? ? X Y K|? ? ? ? X Y K|? ? ? ? X Y K|? ? ? X Y K|? ? X Y|? ? X Y]; subst; (destruct i as [|[|i]]; [|discriminate X|discriminate X]); injection X as <-; try discriminate Y; discriminate K.
  Qed.
  (** The recovery fails. *)
  Lemma go_failed b : work keccak recover size b = Failed -> exists f, run (initial headers [b]) f /\ f_main f = M_end.
  Proof.
    intros E. eexists. split; [|shelve]. eapply main_to; [eapply main_to; [eapply main_to; [eapply worker_to; [eapply worker_to; [apply (go_set b [])|]|]|]|]|].
    - eapply (w_error _ _ _ 0 _ _ b []); [reflexivity|reflexivity|reflexivity|reflexivity|exact E].
    - eapply w_pushes; [reflexivity|reflexivity|reflexivity].
    - eapply (m_read max_workers E_finish); reflexivity.
    - eapply (m_waited max_workers E_finish); [reflexivity|]. intros w [<-|[]]. discriminate.
    - eapply (m_end max_workers E_finish); [reflexivity|]. eapply round_error; [reflexivity|reflexivity|reflexivity].
      Unshelve. reflexivity.
  Qed.
  Lemma failed_end b f : work keccak recover size b = Failed -> run (initial headers [b]) f -> f_stop f = true \/ f_collected f = [].
  Proof.
    intros E R. apply invariant in R as [(X & _)|(k & I)]; [now left|]. right. destruct (i_collected _ _ _ _ _ _ _ _ I) as (rs & Rs & B). destruct k as [|k].
    - cbn [firstn results_of] in Rs. injection Rs as <-. cbn [bufferize] in B. now injection B as <-.
    - cbn [firstn results_of] in Rs. rewrite E in Rs. discriminate.
  Qed.
End Go.
