(** The worker: proofs over all interleavings. *)
From Verif Require Import Base WorkerModel WorkerSpec.

Section Runs.
  Variable K : nat.
  Lemma run_app s ws s1 ws2 s2 : run K s ws s1 -> run K s1 ws2 s2 -> run K s (ws ++ ws2) s2.
  Proof. intros R. revert ws2 s2. induction R as [s|s w s0 ws s1 H _ IH]; intros ws2 s2 R2; [exact R2|]. cbn [app]. econstructor; [exact H|]. now apply IH. Qed.
  Lemma run_snoc s ws s1 w s2 : run K s ws s1 -> step K w s1 s2 -> run K s (ws ++ [w]) s2.
  Proof. intros R H. eapply run_app; [exact R|]. econstructor; [exact H|constructor]. Qed.
  Lemma run_invariant (P : sys -> Prop) : (forall w s s', P s -> step K w s s' -> P s') -> forall s ws s', P s -> run K s ws s' -> P s'.
  Proof. intros H s ws s' Ps R. induction R as [|s w s1 ws s2 St _ IH]; [exact Ps|]. apply IH. eapply H; eassumption. Qed.

  (** ** The state and the thread *)
  Definition fits (s : sys) : Prop :=
    (match own s with
     | O_spawn _ => st s = kStarting /\ (th s = T_none \/ th s = T_done)
     | O_terminate => True
     | _ =>
       match st s with
       | kStopped => th s = T_none \/ th s = T_done
       | kStarting => th s = T_begin
       | kStarted => working (th s) \/ th s = T_clear \/ th s = T_end
       | kStopping => True
       end
     end)
    /\ (own s = O_destroy_join -> st s = kStopping \/ th s = T_none \/ th s = T_done)
    /\ match own s with O_poll | O_terminate => True | O_stop_kick _ => st s = kStopping \/ th s = T_done | _ => True end.
  Lemma fits_step w s s' : fits s -> step K w s s' -> fits s'.
  Proof.
    destruct w; intros F H; destruct H; unfold fits in *; cbn [own st th] in *;
      repeat match goal with x : bool |- _ => destruct x | x : wstate |- _ => destruct x | x : opc |- _ => destruct x end; cbn [working] in *; try tauto; try (intuition (try discriminate; try congruence)).
  Qed.
  Lemma fits_initial : fits initial.
  Proof. unfold fits, initial. cbn. intuition discriminate. Qed.
  Lemma reachable_fits s : reachable K s -> fits s.
  Proof. intros (ws & R). eapply (run_invariant fits); [apply fits_step|apply fits_initial|exact R]. Qed.
  Definition running (t : tpc) : Prop := t <> T_none /\ t <> T_done.
  Definition held (s : sys) : Prop := (running (th s) -> hd_ s = H_joinable) /\ (own s = O_destroyed -> ~ running (th s)).
  Lemma held_step w s s' : fits s -> held s -> step K w s s' -> held s'.
  Proof.
    destruct w; intros F (H1 & H2) St; destruct St; unfold fits, held, running in *; cbn [own st th hd_] in *; try (split; [intros R; apply H1|intros E; try discriminate E; intros R; apply H2]; [|]; intuition congruence); try (split; intuition congruence);
    repeat match goal with x : bool |- _ => destruct x | x : handle |- _ => destruct x end; intuition congruence.
  Qed.
  Lemma reachable_held s : reachable K s -> held s.
  Proof.
    intros (ws & R). assert (X : fits s /\ held s); [|tauto]. eapply (run_invariant (fun s => fits s /\ held s)); [|split; [apply fits_initial|split; intros H; [now destruct (proj1 H)|discriminate]]|exact R].
    intros w a b (F & H) St. split; [eapply fits_step; eassumption|eapply held_step; eassumption].
  Qed.

  (** ** Kicks *)
  Lemma owner_keeps s s' : fits s -> running (th s) -> owner_step s s' -> th s' = th s /\ (kicked s = true -> kicked s' = true).
  Proof.
    intros F R St. destruct St; cbn [th kicked] in *; try (split; [reflexivity|congruence]); try (split; [reflexivity|reflexivity]); exfalso; unfold fits, running in *; cbn [own st th] in *; intuition congruence.
  Qed.
  Lemma passes_here s ws s' (P : sys -> Prop) : run K s ws s' -> P s -> passes K s ws s' P.
  Proof. intros R H. exists [], ws, s. repeat split; [constructor|exact R|exact H]. Qed.
  Lemma passes_later w s s1 ws s' (P : sys -> Prop) : step K w s s1 -> passes K s1 ws s' P -> passes K s (w :: ws) s' P.
  Proof. intros H (ws1 & ws2 & x & -> & R1 & R2 & Px). exists (w :: ws1), ws2, x. split; [reflexivity|]. split; [econstructor; eassumption|]. auto. Qed.
  Lemma working_running t : working t -> running t.
  Proof. destruct t; cbn; try tauto; intros _; split; discriminate. Qed.
  Lemma kick_kept s ws s' : fits s -> working (th s) -> kicked s = true -> run K s ws s' ->
    (kicked s' = true /\ working (th s')) \/ passes K s ws s' (fun x => th x = T_test) \/ passes K s ws s' (fun x => th x = T_end).
  Proof.
    intros F W Kk R. induction R as [s|s w s1 ws s2 St R IH]; [left; auto|]. assert (F1 : fits s1) by (eapply fits_step; eassumption). destruct w.
    - destruct (owner_keeps s s1 F (working_running _ W) St) as (E & Ek). destruct IH as [H|[H|H]]; [exact F1|now rewrite E|auto|left; exact H|right; left; eapply passes_later; eassumption|right; right; eapply passes_later; eassumption].
    - assert (C : (kicked s1 = true /\ working (th s1)) \/ th s1 = T_test \/ th s1 = T_end) by (destruct St; cbn [th kicked working] in *; try tauto; discriminate).
      destruct C as [(Ck & Cw)|[C|C]]; [|right; left; apply (passes_later Thread s s1); [exact St|]; now apply passes_here|right; right; apply (passes_later Thread s s1); [exact St|]; now apply passes_here].
      destruct IH as [H|[H|H]]; auto; [right; left; eapply passes_later; eassumption|right; right; eapply passes_later; eassumption].
  Qed.
  Definition rank (t : tpc) : nat := match t with T_sleep => 3 | T_check => 2 | T_test => 1 | _ => 0 end.
  Lemma wakes_up s ws s' : fits s -> (waiting (th s) /\ kicked s = true) \/ th s = T_test -> run K s ws s' -> (rank (th s) <= thread_steps ws)%nat -> passes K s ws s' (fun x => exists b, answered (th x) b).
  Proof.
    intros F C R. induction R as [s|s w s1 ws s2 St R IH]; intros L.
    - exfalso. unfold thread_steps in L. cbn [filter length] in L. destruct C as [(W & _)|E]; [destruct (th s); cbn in W, L; try tauto; lia|rewrite E in L; cbn in L; lia].
    - assert (F1 : fits s1) by (eapply fits_step; eassumption). assert (Rn : running (th s)) by (destruct C as [(W & _)|E]; [destruct (th s); cbn in W; try tauto; split; discriminate|rewrite E; split; discriminate]). destruct w.
      + destruct (owner_keeps s s1 F Rn St) as (E & Ek). eapply passes_later; [exact St|]. apply IH; [exact F1|rewrite E; intuition|rewrite E; exact L].
      + change (thread_steps (Thread :: ws)) with (S (thread_steps ws)) in L. eapply passes_later; [exact St|].
        assert (D : (exists b, answered (th s1) b) \/ ((waiting (th s1) /\ kicked s1 = true \/ th s1 = T_test) /\ (S (rank (th s1)) = rank (th s)))).
        { destruct St; cbn [th kicked waiting rank] in *; try (exfalso; intuition congruence); try (left; eexists; eexists; reflexivity); right; intuition congruence. }
        destruct D as [D|(D & Rk)]; [now apply passes_here|]. apply IH; [exact F1|exact D|lia].
  Qed.

  (** ** Stopping *)
  Definition ending (s : sys) : Prop :=
    own s = O_join /\ hd_ s = H_joinable
    /\ match th s with
       | T_work (Some false) _ | T_end | T_done => True
       | T_test => st s = kStopping
       | T_work _ _ | T_check | T_sleep => st s = kStopping /\ kicked s = true
       | _ => False
       end.
  Definition bound (t : tpc) : nat :=
    match t with T_done => 0 | T_end => 1 | T_work (Some false) n => n + 2 | T_test => K + 3 | T_check => K + 4 | T_sleep => K + 5 | T_work _ n => n + K + 5 | _ => 0 end.
  Lemma stops_in_time s ws s' : ending s -> run K s ws s' -> (bound (th s) <= thread_steps ws)%nat -> passes K s ws s' (fun x => th x = T_done /\ own x = O_join /\ hd_ x = H_joinable).
  Proof.
    intros C R. induction R as [s|s w s1 ws s2 St R IH]; intros L.
    - apply passes_here; [constructor|]. destruct C as (O & H & C). unfold thread_steps in L. cbn [filter length] in L. split; [|auto]. destruct (th s) as [| | |[[|]|] n| | | | |]; cbn [bound] in L; try lia; tauto.
    - destruct w.
      + destruct C as (O & H & C). destruct St; cbn [own] in O; try discriminate; cbn [hd_] in H; try discriminate. apply passes_here; [econstructor; [apply join|exact R]|]. auto.
      + change (thread_steps (Thread :: ws)) with (S (thread_steps ws)) in L. destruct C as (O & H & C). assert (D : ending s1 /\ (S (bound (th s1)) <= bound (th s))%nat).
        { unfold ending. destruct St; cbn [own hd_ th st kicked bound] in *; try (destruct a as [[|]|]); cbn [bound] in *; try (split; [split; [assumption|split; [assumption|]]|]); cbn [bound]; try lia; try tauto; try (exfalso; intuition congruence). }
        destruct D as (D & B). eapply passes_later; [exact St|]. apply IH; [exact D|lia].
  Qed.
End Runs.
