(** Proofs about the log. *)
From Coq Require Import Strings.String.
From Verif Require Import Base BaseFacts DbModel LogModel LogSpec.
Open Scope list_scope.
Open Scope N_scope.

Lemma set_thread_length l : forall i t, length (set_thread l i t) = length l.
Proof. induction l as [ | x l I ]; intros [ | i ] t; cbn; [ reflexivity | reflexivity | reflexivity | now rewrite I ]. Qed.
Lemma set_thread_same l : forall i t x, nth_error l i = Some x -> nth_error (set_thread l i t) i = Some t.
Proof. induction l as [ | y l I ]; intros [ | i ] t x H; try discriminate H; cbn; [ reflexivity | exact (I i t x H) ]. Qed.
Lemma set_thread_other l : forall i j t, i <> j -> nth_error (set_thread l i t) j = nth_error l j.
Proof. induction l as [ | y l I ]; intros [ | i ] [ | j ] t H; cbn; try reflexivity; [ now elim H | apply I; congruence ]. Qed.

Section Logging.
  Variable verbosity : N.
  Variable thread_enabled : bool.
  Variable thread_id : nat -> bytes.
  Notation items := (items verbosity thread_enabled thread_id).
  Notation step := (step verbosity thread_enabled thread_id).
  Notation steps := (steps verbosity thread_enabled thread_id).
  Definition id_of (i : nat) : option bytes := if thread_enabled then Some (thread_id i) else None.
  Notation line_of p := (line (id_of (fst p)) (snd p)).

  Definition chars (l : list item) : bytes := concat (map (fun x => match x with Char c => [c] | Relock => [] end) l).
  Lemma chars_app a b : chars (a ++ b) = chars a ++ chars b.
  Proof. unfold chars. now rewrite map_app, concat_app. Qed.
  Lemma chars_map b : chars (map Char b) = b.
  Proof. induction b as [ | x b I ]; [ reflexivity | ]. unfold chars in *. cbn. now rewrite I. Qed.
  Lemma chars_operands l : chars (concat (map (operand_items verbosity) l)) = concat (map operand_text l).
  Proof.
    induction l as [ | o l I ]; [ reflexivity | ]. cbn [map concat]. rewrite chars_app, I. f_equal. destruct o as [b | n]; cbn [operand_items operand_text]; [ apply chars_map | ].
    now destruct (n <? verbosity).
  Qed.
  Lemma tag_name m : known_level m -> nth (N.to_nat (m_level m)) kLogTags [] = level_name (m_level m).
  Proof.
    unfold known_level. intros H. assert (m_level m = 0 \/ m_level m = 1 \/ m_level m = 2 \/ m_level m = 3 \/ m_level m = 4 \/ m_level m = 5 \/ m_level m = 6) as C by lia.
    destruct C as [C | [C | [C | [C | [C | [C | C]]]]]]; rewrite C; reflexivity.
  Qed.
  Lemma chars_items i m : known_level m -> chars (items i m) = line (id_of i) m.
  Proof.
    intros H. unfold LogModel.items. rewrite chars_app, chars_map, chars_operands. unfold header, line, id_of. rewrite (tag_name m H), <- !app_assoc. f_equal. f_equal. f_equal. f_equal.
    destruct thread_enabled; [ now rewrite <- !app_assoc | reflexivity ].
  Qed.

  Lemma logged_app i a b : logged_by i (a ++ b) = logged_by i a ++ logged_by i b.
  Proof. unfold logged_by. now rewrite List.filter_app, map_app. Qed.
  Lemma logged_one i j m : logged_by i [(j, m)] = if Nat.eqb j i then [m] else [].
  Proof. unfold logged_by. cbn. now destruct (Nat.eqb j i). Qed.

  (** ** The state while both streams take everything *)
  Section Run.
    Variable programs : list (list message).
    Hypothesis levels : forall p m, In p programs -> In m p -> known_level m.
    Definition pending (t : thread) : list message := match t with Idle todo => todo | Writing _ todo => todo end.
    (** What was logged: whole messages, and the begin of the one being written. *)
    Definition inv (s : state) (order : list (nat * message)) (now : option (nat * message)) (done : bytes) : Prop :=
      bad s = false /\ healthy (first s) /\ healthy (second s)
      /\ s_out (first s) = concat (map (fun p => line_of p) order) ++ done /\ s_out (second s) = s_out (first s)
      /\ holder s = option_map fst now
      /\ length (threads s) = length programs
      /\ (forall i t, nth_error (threads s) i = Some t ->
            exists p, nth_error programs i = Some p /\ logged_by i order ++ match now with Some (j, m) => if Nat.eqb j i then [m] else [] | None => [] end ++ visible verbosity (pending t) = visible verbosity p
              /\ (forall m, In m (pending t) -> In m p)
              /\ match now with
                 | Some (j, m) => if Nat.eqb j i then exists r, t = Writing r (pending t) /\ items i m = map Char done ++ r /\ known_level m else t = Idle (pending t)
                 | None => t = Idle (pending t)
                 end)
      /\ match now with None => done = [] | Some (j, m) => (j < length programs)%nat end.

    Lemma inv_start : inv (start programs (mkSink [] None) (mkSink [] None)) [] None [].
    Proof.
      unfold inv, start. cbn [bad first second s_out s_room holder threads option_map]. repeat (split; [ reflexivity | ]). split; [ now rewrite map_length | ]. split; [ | reflexivity ].
      intros i t H. rewrite nth_error_map in H. destruct (nth_error programs i) as [p | ] eqn:P; [ | discriminate H ]. injection H as <-. exists p. repeat split; auto.
    Qed.
    Lemma put_healthy s c : bad s = false -> healthy (first s) -> healthy (second s) ->
      put_char s c = mkState (holder s) (threads s) (mkSink (s_out (first s) ++ [c]) None) (mkSink (s_out (second s) ++ [c]) None) false.
    Proof. unfold healthy. intros B H1 H2. unfold put_char, sputc. now rewrite B, H1, H2. Qed.
    Lemma visible_cons m l : visible verbosity (m :: l) = (if verbosity <=? m_level m then [m] else []) ++ visible verbosity l.
    Proof. unfold visible. cbn. now destruct (verbosity <=? m_level m). Qed.

    Lemma inv_step s t order now done : inv s order now done -> step s t -> exists order' now' done', inv t order' now' done'.
    Proof.
      intros [B [H1 [H2 [O1 [O2 [HO [LE [TH DO]]]]]]]] ST. destruct ST as [s i m todo E L | s i m todo E L HN | s i c r todo E | s i r todo E HN | s i todo E].
      - (* skip *)
        exists order, now, done. unfold inv, with_thread. cbn [bad first second holder threads]. repeat (split; [ assumption | ]). split; [ now rewrite set_thread_length | ]. split; [ | assumption ].
        intros j t H. destruct (Nat.eq_dec i j) as [<- | NE].
        + rewrite (set_thread_same _ _ _ _ E) in H. injection H as <-. destruct (TH i _ E) as [p [P [Q [I F]]]]. cbn [pending] in Q, I, F |- *. exists p. split; [ exact P | ].
          rewrite visible_cons, (proj2 (N.leb_gt _ _) L) in Q. split; [ exact Q | ]. split; [ intros x X; apply I; now right | ].
          destruct now as [[j m'] | ]; [ | reflexivity ]. destruct (Nat.eqb j i); [ | reflexivity ]. destruct F as [r [F _]]. discriminate F.
        + rewrite (set_thread_other _ _ _ _ NE) in H. exact (TH j t H).
      - (* lock *)
        assert (now = None) as -> by (destruct now; [ rewrite HO in HN; discriminate HN | reflexivity ]). subst done.
        assert (LI : (i < length (threads s))%nat) by (apply nth_error_Some; congruence).
        exists order, (Some (i, m)), []. unfold inv, with_thread. cbn [bad first second holder threads option_map fst]. repeat (split; [ first [ assumption | reflexivity ] | ]). split; [ now rewrite set_thread_length | ]. split; [ | now rewrite <- LE ].
        intros j t H. destruct (Nat.eq_dec i j) as [<- | NE].
        + rewrite (set_thread_same _ _ _ _ E) in H. injection H as <-. destruct (TH i _ E) as [p [P [Q [I F]]]]. cbn [pending] in Q, I, F |- *. exists p. split; [ exact P | ].
          rewrite visible_cons, (proj2 (N.leb_le _ _) L) in Q. rewrite Nat.eqb_refl. split; [ exact Q | ]. split; [ intros x X; apply I; now right | ].
          exists (items i m). split; [ reflexivity | ]. split; [ reflexivity | ]. apply (levels p m); [ exact (nth_error_In _ _ P) | apply I; now left ].
        + rewrite (set_thread_other _ _ _ _ NE) in H. destruct (TH j t H) as [p [P [Q [I F]]]]. exists p. split; [ exact P | ]. rewrite (proj2 (Nat.eqb_neq i j) NE). auto.
      - (* a character *)
        destruct (TH i _ E) as [p [P [Q [I F]]]]. destruct now as [[j m] | ]; [ | discriminate F ]. destruct (Nat.eqb_spec j i) as [-> | NE]; [ | discriminate F ].
        destruct F as [r' [F [G K]]]. cbn [pending] in F, Q, I. injection F as <-.
        exists order, (Some (i, m)), (done ++ [c]). rewrite (put_healthy s c B H1 H2). unfold inv, with_thread. cbn [bad first second holder threads s_out s_room].
        split; [ reflexivity | ]. split; [ reflexivity | ]. split; [ reflexivity | ]. split; [ now rewrite O1, <- app_assoc | ]. split; [ now rewrite O2 | ]. split; [ exact HO | ].
        split; [ now rewrite set_thread_length | ]. split; [ | assumption ].
        intros j t H. destruct (Nat.eq_dec i j) as [<- | NE].
        + rewrite (set_thread_same _ _ _ _ E) in H. injection H as <-. cbn [pending]. exists p. rewrite Nat.eqb_refl. split; [ exact P | ]. split; [ exact Q | ]. split; [ exact I | ].
          exists r. split; [ reflexivity | ]. split; [ rewrite map_app, <- app_assoc; exact G | exact K ].
        + rewrite (set_thread_other _ _ _ _ NE) in H. destruct (TH j t H) as [q [P' [Q' [I' F']]]]. exists q. rewrite (proj2 (Nat.eqb_neq i j) NE) in *. auto.
      - (* the mutex is never free while somebody writes *)
        destruct (TH i _ E) as [p [P [Q [I F]]]]. destruct now as [[j m] | ]; [ | discriminate F ]. rewrite HN in HO. discriminate HO.
      - (* unlock *)
        destruct (TH i _ E) as [p [P [Q [I F]]]]. destruct now as [[j m] | ]; [ | discriminate F ]. destruct (Nat.eqb_spec j i) as [-> | NE]; [ | discriminate F ].
        destruct F as [r' [F [G K]]]. cbn [pending] in F, Q, I. injection F as <-.
        exists (order ++ [(i, m)]), None, []. unfold inv, with_thread. cbn [bad first second holder threads option_map]. split; [ assumption | ]. split; [ assumption | ]. split; [ assumption | ].
        split. { rewrite O1, map_app, concat_app. cbn [map concat fst snd]. rewrite !app_nil_r. f_equal. rewrite <- (chars_items i m K), G, app_nil_r. symmetry. apply chars_map. }
        split; [ assumption | ]. split; [ reflexivity | ]. split; [ now rewrite set_thread_length | ]. split; [ | reflexivity ].
        intros j t H. destruct (Nat.eq_dec i j) as [<- | NE].
        + rewrite (set_thread_same _ _ _ _ E) in H. injection H as <-. cbn [pending]. exists p. split; [ exact P | ]. rewrite logged_app, logged_one, Nat.eqb_refl, <- app_assoc. auto.
        + rewrite (set_thread_other _ _ _ _ NE) in H. destruct (TH j t H) as [q [P' [Q' [I' F']]]]. exists q. split; [ exact P' | ].
          rewrite logged_app, logged_one. rewrite (proj2 (Nat.eqb_neq i j) NE) in *. rewrite app_nil_r. auto.
    Qed.
    Lemma inv_steps s : steps (start programs (mkSink [] None) (mkSink [] None)) s -> exists order now done, inv s order now done.
    Proof.
      intros H. remember (start programs (mkSink [] None) (mkSink [] None)) as s0 eqn:E. induction H as [ | s t u H I ST ].
      - subst. exists [], None, []. apply inv_start.
      - destruct (I E) as [o [n [d V]]]. exact (inv_step t u o n d V ST).
    Qed.

    (** At any moment. *)
    Lemma log_prefix s : steps (start programs (mkSink [] None) (mkSink [] None)) s ->
      exists order part, s_out (first s) = concat (map (fun p => line_of p) order) ++ part /\ s_out (second s) = s_out (first s)
        /\ (forall i p, nth_error programs i = Some p -> exists r, visible verbosity p = logged_by i order ++ r)
        /\ (part = [] \/ exists i m rest, line (id_of i) m = part ++ rest /\ forall p, nth_error programs i = Some p -> exists r, visible verbosity p = logged_by i order ++ m :: r).
    Proof.
      intros H. destruct (inv_steps s H) as [o [n [d V]]]. destruct V as [B [H1 [H2 [O1 [O2 [HO [LE [TH DO]]]]]]]].
      exists o, d. split; [ exact O1 | ]. split; [ exact O2 | ]. split.
      - intros i p P. assert (L : (i < length (threads s))%nat) by (rewrite LE; apply nth_error_Some; congruence).
        destruct (nth_error (threads s) i) as [t | ] eqn:T; [ | apply nth_error_None in T; lia ]. destruct (TH i t T) as [q [P' [Q _]]]. rewrite P in P'. injection P' as <-. eexists. symmetry. exact Q.
      - destruct n as [[i m] | ]; [ right | left; exact DO ]. assert (L : (i < length (threads s))%nat) by now rewrite LE.
        destruct (nth_error (threads s) i) as [t | ] eqn:T; [ | apply nth_error_None in T; lia ]. destruct (TH i t T) as [q [P' [Q [_ F]]]]. rewrite Nat.eqb_refl in F, Q. destruct F as [r [_ [G K]]].
        exists i, m, (chars r). split; [ rewrite <- (chars_items i m K), G, chars_app, chars_map; reflexivity | ]. intros p P. rewrite P in P'. injection P' as <-. eexists. symmetry. exact Q.
    Qed.
    (** At the end. *)
    Lemma log_end s : steps (start programs (mkSink [] None) (mkSink [] None)) s -> finished s ->
      exists order, s_out (first s) = concat (map (fun p => line_of p) order) /\ s_out (second s) = s_out (first s)
        /\ forall i p, nth_error programs i = Some p -> logged_by i order = visible verbosity p.
    Proof.
      intros H F. destruct (inv_steps s H) as [o [n [d V]]]. destruct V as [B [H1 [H2 [O1 [O2 [HO [LE [TH DO]]]]]]]].
      assert (n = None) as ->.
      { destruct n as [[i m] | ]; [ exfalso | reflexivity ]. assert (L : (i < length (threads s))%nat) by now rewrite LE.
        destruct (nth_error (threads s) i) as [t | ] eqn:T; [ | apply nth_error_None in T; lia ]. destruct (TH i t T) as [q [_ [_ [_ G]]]]. rewrite Nat.eqb_refl in G. destruct G as [r [G _]].
        pose proof (F t (nth_error_In _ _ T)) as X. rewrite X in G. discriminate G. }
      subst d. rewrite app_nil_r in O1. exists o. split; [ exact O1 | ]. split; [ exact O2 | ].
      intros i p P. assert (L : (i < length (threads s))%nat) by (rewrite LE; apply nth_error_Some; congruence).
      destruct (nth_error (threads s) i) as [t | ] eqn:T; [ | apply nth_error_None in T; lia ]. destruct (TH i t T) as [q [P' [Q _]]]. rewrite P in P'. injection P' as <-.
      pose proof (F t (nth_error_In _ _ T)) as X. subst t. cbn [pending visible List.filter] in Q. unfold visible in Q at 1. cbn in Q. now rewrite app_nil_r in Q.
    Qed.
  End Run.

  (** ** Progress *)
  Definition weight (i : nat) (m : message) : nat := (2 + length (items i m))%nat.
  Definition thread_weight (i : nat) (t : thread) : nat :=
    match t with Idle todo => list_sum (map (weight i) todo) | Writing r todo => 1 + length r + list_sum (map (weight i) todo) end.
  Fixpoint total (i : nat) (l : list thread) : nat := match l with [] => 0 | t :: r => thread_weight i t + total (S i) r end.
  Lemma total_set l : forall k i t x, nth_error l i = Some x -> (thread_weight (k + i) t < thread_weight (k + i) x)%nat -> (total k (set_thread l i t) < total k l)%nat.
  Proof.
    induction l as [ | y l I ]; intros k [ | i ] t x H L; try discriminate H; cbn [set_thread total].
    - injection H as ->. rewrite Nat.add_0_r in L. lia.
    - cbn [nth_error] in H. assert (total (S k) (set_thread l i t) < total (S k) l)%nat; [ | lia ]. apply (I (S k) i t x H). now replace (S k + i)%nat with (k + S i)%nat by lia.
  Qed.
  Lemma put_threads s c : threads (put_char s c) = threads s.
  Proof. unfold put_char. destruct (bad s); [ reflexivity | ]. now destruct (sputc (first s) c), (sputc (second s) c). Qed.
  Lemma step_weight s t : step s t -> (total 0 (threads t) < total 0 (threads s))%nat.
  Proof.
    intros ST. destruct ST as [s i m todo E L | s i m todo E L HN | s i c r todo E | s i r todo E HN | s i todo E]; unfold with_thread; cbn [threads].
    - apply (total_set _ 0 i _ _ E). unfold thread_weight, list_sum; cbn [map fold_right]; unfold weight; cbn [Nat.add]; lia.
    - apply (total_set _ 0 i _ _ E). unfold thread_weight, list_sum; cbn [map fold_right]; unfold weight; cbn [Nat.add]; lia.
    - rewrite put_threads. apply (total_set _ 0 i _ _ E). cbn [thread_weight map list_sum fold_right length plus]. lia.
    - apply (total_set _ 0 i _ _ E). cbn [thread_weight map list_sum fold_right length plus]. lia.
    - apply (total_set _ 0 i _ _ E). cbn [thread_weight map list_sum fold_right length plus]. lia.
  Qed.

  Lemma plain_items i m : plain verbosity m -> forall x, In x (items i m) -> x <> Relock.
  Proof.
    intros H x X ->. unfold LogModel.items in X. apply in_app_or in X. destruct X as [X | X]; [ apply in_map_iff in X; destruct X as [c [X _]]; discriminate X | ].
    apply in_concat in X. destruct X as [l [A B]]. apply in_map_iff in A. destruct A as [o [A C]]. subst l. destruct o as [b | n]; cbn in B; [ apply in_map_iff in B; destruct B as [c [B _]]; discriminate B | ].
    pose proof (H _ n C eq_refl) as L. rewrite (proj2 (N.ltb_lt _ _) L) in B. destruct B.
  Qed.
  (** Holder and writer agree, and writers only have characters to print; whatever the streams do. *)
  Definition sane (s : state) : Prop :=
    (forall i, holder s = Some i -> exists r todo, nth_error (threads s) i = Some (Writing r todo))
    /\ (forall i r todo, nth_error (threads s) i = Some (Writing r todo) -> holder s = Some i /\ forall x, In x r -> x <> Relock)
    /\ (forall i t m, nth_error (threads s) i = Some t -> In m (pending t) -> plain verbosity m).
  Lemma put_holder s c : holder (put_char s c) = holder s.
  Proof. unfold put_char. destruct (bad s); [ reflexivity | ]. now destruct (sputc (first s) c), (sputc (second s) c). Qed.
  Lemma sane_start programs a b : (forall p m, In p programs -> In m p -> plain verbosity m) -> sane (start programs a b).
  Proof.
    intros H. unfold sane, start. cbn [holder threads]. split; [ intros i E; discriminate E | ]. split.
    - intros i r todo E. rewrite nth_error_map in E. destruct (nth_error programs i); discriminate E.
    - intros i t m E X. rewrite nth_error_map in E. destruct (nth_error programs i) as [p | ] eqn:P; [ | discriminate E ]. injection E as <-. exact (H p m (nth_error_In _ _ P) X).
  Qed.
  Lemma sane_step s t : sane s -> step s t -> sane t.
  Proof.
    intros [A [B C]] ST. destruct ST as [s i m todo E L | s i m todo E L HN | s i c r todo E | s i r todo E HN | s i todo E]; unfold sane, with_thread; cbn [holder threads].
    - split; [ | split ].
      + intros j H. destruct (A j H) as [r [td R]]. destruct (Nat.eq_dec i j) as [<- | NE]; [ congruence | ]. rewrite set_thread_other by assumption. eauto.
      + intros j r td H. destruct (Nat.eq_dec i j) as [<- | NE]; [ rewrite (set_thread_same _ _ _ _ E) in H; discriminate H | ]. rewrite set_thread_other in H by assumption. exact (B j r td H).
      + intros j t x H X. destruct (Nat.eq_dec i j) as [<- | NE]; [ rewrite (set_thread_same _ _ _ _ E) in H; injection H as <-; apply (C i _ x E); now right | ]. rewrite set_thread_other in H by assumption. exact (C j t x H X).
    - split; [ | split ].
      + intros j H. injection H as <-. rewrite (set_thread_same _ _ _ _ E). eauto.
      + intros j r td H. destruct (Nat.eq_dec i j) as [<- | NE].
        * rewrite (set_thread_same _ _ _ _ E) in H. injection H as <- <-. split; [ reflexivity | ]. apply plain_items. apply (C i _ m E). now left.
        * rewrite set_thread_other in H by assumption. destruct (B j r td H) as [X _]. congruence.
      + intros j t x H X. destruct (Nat.eq_dec i j) as [<- | NE]; [ rewrite (set_thread_same _ _ _ _ E) in H; injection H as <-; apply (C i _ x E); now right | ]. rewrite set_thread_other in H by assumption. exact (C j t x H X).
    - rewrite put_threads. destruct (B i _ _ E) as [HI RI]. split; [ | split ].
      + intros j H. rewrite HI in H. injection H as <-. rewrite (set_thread_same _ _ _ _ E). eauto.
      + intros j r' td H. destruct (Nat.eq_dec i j) as [<- | NE].
        * rewrite (set_thread_same _ _ _ _ E) in H. injection H as <- <-. split; [ exact HI | ]. intros x X. apply RI. now right.
        * rewrite set_thread_other in H by assumption. exact (B j r' td H).
      + intros j t x H X. destruct (Nat.eq_dec i j) as [<- | NE]; [ rewrite (set_thread_same _ _ _ _ E) in H; injection H as <-; exact (C i _ x E X) | ]. rewrite set_thread_other in H by assumption. exact (C j t x H X).
    - destruct (B i _ _ E) as [HI RI]. congruence.
    - destruct (B i _ _ E) as [HI RI]. split; [ | split ].
      + intros j H. discriminate H.
      + intros j r' td H. destruct (Nat.eq_dec i j) as [<- | NE]; [ rewrite (set_thread_same _ _ _ _ E) in H; discriminate H | ]. rewrite set_thread_other in H by assumption. destruct (B j r' td H) as [X _]. congruence.
      + intros j t x H X. destruct (Nat.eq_dec i j) as [<- | NE]; [ rewrite (set_thread_same _ _ _ _ E) in H; injection H as <-; exact (C i _ x E X) | ]. rewrite set_thread_other in H by assumption. exact (C j t x H X).
  Qed.
  Lemma steps_sane programs a b s : (forall p m, In p programs -> In m p -> plain verbosity m) -> steps (start programs a b) s -> sane s.
  Proof. intros H R. remember (start programs a b) as s0 eqn:E. induction R as [ | s t u R I ST ]; [ subst; now apply sane_start | ]. exact (sane_step t u (I E) ST). Qed.
  Lemma progress programs a b s : (forall p m, In p programs -> In m p -> plain verbosity m) -> steps (start programs a b) s -> finished s \/ exists t, step s t.
  Proof.
    intros H R. pose proof (steps_sane programs a b s H R) as [A [B C]]. destruct (holder s) as [i | ] eqn:HO.
    - right. destruct (A i eq_refl) as [r [todo E]]. destruct (B i r todo E) as [_ RI]. destruct r as [ | [c | ] r ].
      + eexists. exact (step_unlock _ _ _ s i todo E).
      + eexists. exact (step_char _ _ _ s i c r todo E).
      + exfalso. apply (RI Relock); [ now left | reflexivity ].
    - assert (D : (exists i m todo, nth_error (threads s) i = Some (Idle (m :: todo))) \/ forall i t, nth_error (threads s) i = Some t -> t = Idle []).
      { assert (W : forall i r todo, nth_error (threads s) i <> Some (Writing r todo)) by (intros i r todo E; destruct (B i r todo E) as [X _]; discriminate X).
        clear -W. induction (threads s) as [ | t l I ]; [ right; intros [ | i ] t E; discriminate E | ].
        destruct t as [[ | m todo] | r todo ]; [ | left; exists 0%nat, m, todo; reflexivity | elim (W 0%nat r todo); reflexivity ].
        destruct I as [[i [m [todo E]]] | I]; [ intros i r todo; exact (W (S i) r todo) | left; exists (S i), m, todo; exact E | right ].
        intros [ | i ] t E; [ cbn in E; congruence | exact (I i t E) ]. }
      destruct D as [[i [m [todo E]]] | D].
      + right. destruct (N.lt_ge_cases (m_level m) verbosity) as [L | L]; eexists; [ exact (step_skip _ _ _ s i m todo E L) | exact (step_lock _ _ _ s i m todo E L HO) ].
      + left. intros t X. apply In_nth_error in X. destruct X as [i X]. exact (D i t X).
  Qed.
  (** Every schedule comes to its end. *)
  Lemma steps_end : well_founded (fun t s => step s t).
  Proof. apply (well_founded_lt_compat _ (fun s => total 0 (threads s))). intros t s. apply step_weight. Qed.

  (** ** A stream that fails *)
  Lemma bad_stays s t : step s t -> bad s = true -> bad t = true /\ s_out (first t) = s_out (first s) /\ s_out (second t) = s_out (second s).
  Proof.
    intros ST B. destruct ST as [s i m todo E L | s i m todo E L HN | s i c r todo E | s i r todo E HN | s i todo E]; unfold with_thread; cbn [bad first second]; auto.
    unfold put_char. rewrite B. auto.
  Qed.
  Lemma bad_forever s t : steps s t -> bad s = true -> s_out (first t) = s_out (first s) /\ s_out (second t) = s_out (second s).
  Proof.
    intros R B. assert (X : bad t = true /\ s_out (first t) = s_out (first s) /\ s_out (second t) = s_out (second s)); [ | tauto ].
    induction R as [ | s t u R I ST ]; [ auto | ]. destruct (I B) as [B' [E1 E2]]. destruct (bad_stays t u ST B') as [B'' [F1 F2]]. split; [ exact B'' | ]. split; congruence.
  Qed.
End Logging.
