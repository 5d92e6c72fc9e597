(** The log: theorems in their final form and cases. *)
From Coq Require Import Strings.String.
From Verif Require Import Base BaseFacts DbModel LogModel LogSpec LogProofs.
Open Scope list_scope.
Open Scope N_scope.

Section Logging.
  Variable verbosity : N.
  Variable thread_enabled : bool.
  Variable thread_id : nat -> bytes.
  Notation items := (items verbosity thread_enabled thread_id).
  Notation step := (step verbosity thread_enabled thread_id).
  Notation steps := (steps verbosity thread_enabled thread_id).

  (** ** Messages whose operands log *)
  Definition relocks (l : list item) : nat := length (filter (fun x => match x with Relock => true | Char _ => false end) l).
  Definition relocks_of (i : nat) (todo : list message) : nat := list_sum (map (fun m => relocks (items i m)) (visible verbosity todo)).
  Definition thread_relocks (i : nat) (t : thread) : nat := match t with Idle todo => relocks_of i todo | Writing r todo => relocks r + relocks_of i todo end.
  Definition keeps (programs : list (list message)) (s : state) : Prop :=
    (forall i r todo, nth_error (threads s) i = Some (Writing r todo) -> holder s = Some i)
    /\ length (threads s) = length programs
    /\ (forall i t p, nth_error (threads s) i = Some t -> nth_error programs i = Some p -> thread_relocks i t = relocks_of i p).
  Lemma relocks_cons i m todo : relocks_of i (m :: todo) = ((if (verbosity <=? m_level m)%N then relocks (items i m) else 0) + relocks_of i todo)%nat.
  Proof. unfold relocks_of, visible. cbn [List.filter]. now destruct (verbosity <=? m_level m). Qed.
  Lemma keeps_step programs s t : keeps programs s -> step s t -> keeps programs t.
  Proof.
    intros [A [L C]] ST. destruct ST as [s i m todo E LV | s i m todo E LV HN | s i c r todo E | s i r todo E HN | s i todo E]; unfold keeps, with_thread; cbn [holder threads];
      rewrite ?put_threads, set_thread_length.
    - split; [ | split; [ exact L | ] ].
      + intros j r td H. destruct (Nat.eq_dec i j) as [<- | NE]; [ rewrite (set_thread_same _ _ _ _ E) in H; discriminate H | ]. rewrite set_thread_other in H by assumption. exact (A j r td H).
      + intros j t p H P. destruct (Nat.eq_dec i j) as [<- | NE]; [ | rewrite set_thread_other in H by assumption; exact (C j t p H P) ].
        rewrite (set_thread_same _ _ _ _ E) in H. injection H as <-. rewrite <- (C i _ p E P). cbn [thread_relocks]. now rewrite relocks_cons, (proj2 (N.leb_gt _ _) LV).
    - split; [ | split; [ exact L | ] ].
      + intros j r td H. destruct (Nat.eq_dec i j) as [<- | NE]; [ reflexivity | ]. rewrite set_thread_other in H by assumption. pose proof (A j r td H). congruence.
      + intros j t p H P. destruct (Nat.eq_dec i j) as [<- | NE]; [ | rewrite set_thread_other in H by assumption; exact (C j t p H P) ].
        rewrite (set_thread_same _ _ _ _ E) in H. injection H as <-. rewrite <- (C i _ p E P). cbn [thread_relocks]. now rewrite relocks_cons, (proj2 (N.leb_le _ _) LV).
    - split; [ | split; [ exact L | ] ].
      + intros j r' td H. destruct (Nat.eq_dec i j) as [<- | NE]; [ exact (A i _ _ E) | ]. rewrite set_thread_other in H by assumption. exact (A j r' td H).
      + intros j t p H P. destruct (Nat.eq_dec i j) as [<- | NE]; [ | rewrite set_thread_other in H by assumption; exact (C j t p H P) ].
        rewrite (set_thread_same _ _ _ _ E) in H. injection H as <-. exact (C i _ p E P).
    - exfalso. pose proof (A i _ _ E). congruence.
    - split; [ | split; [ exact L | ] ].
      + intros j r' td H. destruct (Nat.eq_dec i j) as [<- | NE]; [ rewrite (set_thread_same _ _ _ _ E) in H; discriminate H | ]. rewrite set_thread_other in H by assumption.
        pose proof (A j r' td H). pose proof (A i _ _ E). congruence.
      + intros j t p H P. destruct (Nat.eq_dec i j) as [<- | NE]; [ | rewrite set_thread_other in H by assumption; exact (C j t p H P) ].
        rewrite (set_thread_same _ _ _ _ E) in H. injection H as <-. exact (C i _ p E P).
  Qed.
  Lemma keeps_steps programs a b s : steps (start programs a b) s -> keeps programs s.
  Proof.
    intros R. remember (start programs a b) as s0 eqn:E. induction R as [ | s t u R I ST ]; [ | exact (keeps_step programs t u (I E) ST) ]. subst. unfold keeps, start. cbn [holder threads].
    split; [ | split; [ apply map_length | ] ].
    - intros i r todo H. rewrite nth_error_map in H. destruct (nth_error programs i); discriminate H.
    - intros i t p H P. rewrite nth_error_map, P in H. injection H as <-. reflexivity.
  Qed.
  Lemma sum_zero l : list_sum l = 0%nat -> forall x, In x l -> x = 0%nat.
  Proof. induction l as [ | y l I ]; intros H x X; [ destruct X | ]. change (list_sum (y :: l)) with (y + list_sum l)%nat in H. destruct X as [-> | X]; [ lia | apply I; [ lia | exact X ] ]. Qed.
  Lemma relocks_plain i m : relocks (items i m) = 0%nat -> plain verbosity m.
  Proof.
    intros H o l O ->. destruct (N.lt_ge_cases l verbosity) as [L | L]; [ exact L | exfalso ].
    assert (X : In Relock (items i m)).
    { unfold LogModel.items. apply in_or_app. right. apply in_concat. exists [Relock]. split; [ | now left ]. apply in_map_iff. exists (Logs l). split; [ | exact O ]. cbn. now rewrite (proj2 (N.ltb_ge _ _) L). }
    assert (Y : In Relock (filter (fun x => match x with Relock => true | Char _ => false end) (items i m))) by (apply filter_In; auto).
    unfold relocks in H. destruct (filter _ (items i m)); [ destruct Y | discriminate H ].
  Qed.
  Lemma self_wait_lemma programs a b s : steps (start programs a b) s -> finished s -> forall p m, In p programs -> In m p -> verbosity <= m_level m -> plain verbosity m.
  Proof.
    intros R F p m P M V. destruct (keeps_steps programs a b s R) as [_ [L C]]. apply In_nth_error in P. destruct P as [i P].
    assert (LI : (i < length (threads s))%nat) by (rewrite L; apply nth_error_Some; congruence). destruct (nth_error (threads s) i) as [t | ] eqn:T; [ | apply nth_error_None in T; lia ].
    pose proof (C i t p T P) as X. rewrite (F t (nth_error_In _ _ T)) in X. cbn [thread_relocks] in X. change (relocks_of i []) with 0%nat in X. symmetry in X.
    apply (relocks_plain i m). apply (sum_zero _ X). apply (in_map (fun m => relocks (items i m))). unfold visible. apply filter_In. split; [ exact M | now apply N.leb_le ].
  Qed.

  (** ** A stream that takes only some characters *)
  Definition limited (n : nat) (s : state) : Prop :=
    (length (s_out (first s)) <= S n)%nat /\ (bad s = false -> length (s_out (first s)) = length (s_out (second s)) /\ exists k, s_room (second s) = Some k /\ (length (s_out (second s)) + k = n)%nat).
  Lemma limited_step n s t : limited n s -> step s t -> limited n t.
  Proof.
    intros [A B] ST. destruct ST as [s i m todo E LV | s i m todo E LV HN | s i c r todo E | s i r todo E HN | s i todo E]; unfold limited, with_thread; cbn [first second bad]; auto.
    unfold put_char. destruct (bad s) eqn:X; [ rewrite X; auto | ]. destruct (B eq_refl) as [L [k [R K]]]. unfold sputc. rewrite R.
    destruct (s_room (first s)) as [[ | q ] | ]; destruct k as [ | k ]; cbn [first second bad s_out s_room negb andb]; rewrite ?app_length; cbn [length].
    all: split; [ lia | intros Y; first [ discriminate Y | split; [ lia | eexists; split; [ reflexivity | lia ] ] ] ].
  Qed.
  Lemma limited_lemma programs n s room : steps (start programs (mkSink [] room) (mkSink [] (Some n))) s -> (length (s_out (first s)) <= n + 1)%nat.
  Proof.
    intros R. assert (X : limited n s); [ | destruct X; lia ]. remember (start programs (mkSink [] room) (mkSink [] (Some n))) as s0 eqn:E.
    induction R as [ | s t u R I ST ]; [ | exact (limited_step n t u (I E) ST) ]. subst. unfold limited, start. cbn. split; [ lia | ]. intros _. split; [ reflexivity | ]. exists n. auto.
  Qed.
End Logging.

(** ** Cases: two threads, one message each (and one not seen). *)
Definition msg1 : message := mkMsg 2 (str "t1"%string) [Text (str "one"%string); Text [10]].
Definition msg2 : message := mkMsg 4 (str "t2"%string) [Text (str "two"%string); Text [10]].
Definition msg0 : message := mkMsg 1 (str "t0"%string) [Text (str "zero"%string)].
Definition msg_nested : message := mkMsg 4 (str "t3"%string) [Text (str "x"%string); Logs 3].
Definition no_id (i : nat) : bytes := [].
Definition log_programs : list (list message) := [[msg0; msg1]; [msg2]].

(** A schedule as the list of the threads that move. *)
Definition move (verbosity : N) (s : state) (i : nat) : option state :=
  match nth_error (threads s) i with
  | Some (Idle (m :: todo)) =>
    if m_level m <? verbosity then Some (with_thread s (holder s) i (Idle todo))
    else match holder s with None => Some (with_thread s (Some i) i (Writing (items verbosity false no_id i m) todo)) | Some _ => None end
  | Some (Writing (Char c :: r) todo) => Some (with_thread (put_char s c) (holder s) i (Writing r todo))
  | Some (Writing [] todo) => Some (with_thread s None i (Idle todo))
  | _ => None
  end.
Fixpoint moves (verbosity : N) (s : state) (l : list nat) : option state :=
  match l with [] => Some s | i :: r => match move verbosity s i with Some t => moves verbosity t r | None => None end end.
Lemma move_step v s i t : move v s i = Some t -> step v false no_id s t.
Proof.
  unfold move. intros H. destruct (nth_error (threads s) i) as [[[ | m todo] | [ | [c | ] r] todo] | ] eqn:E; try discriminate H.
  - destruct (N.ltb_spec (m_level m) v) as [L | L]; [ injection H as <-; exact (step_skip _ _ _ s i m todo E L) | ].
    destruct (holder s) eqn:HO; [ discriminate H | ]. injection H as <-. exact (step_lock _ _ _ s i m todo E L HO).
  - injection H as <-. exact (step_unlock _ _ _ s i todo E).
  - injection H as <-. exact (step_char _ _ _ s i c r todo E).
Qed.
Lemma steps_trans v e d s t u : steps v e d s t -> steps v e d t u -> steps v e d s u.
Proof. intros A B. induction B as [ | s' t' u' B I ST ]; [ exact A | ]. exact (steps_step _ _ _ _ _ _ (I A) ST). Qed.
Lemma moves_steps v l : forall s t, moves v s l = Some t -> steps v false no_id s t.
Proof.
  induction l as [ | i l I ]; intros s t H; [ injection H as <-; constructor | ]. cbn [moves] in H. destruct (move v s i) as [u | ] eqn:M; [ | discriminate H ].
  apply (steps_trans _ _ _ s u t); [ | exact (I u t H) ]. exact (steps_step _ _ _ s s u (steps_refl _ _ _ s) (move_step v s i u M)).
Qed.
Definition schedule_a : list nat := ([1; 0] ++ repeat 1 16 ++ [0] ++ repeat 0 16)%nat.
Lemma log_case : exists s, steps 2 false no_id (start log_programs (mkSink [] None) (mkSink [] None)) s /\ finished s
  /\ s_out (first s) = str "ERROR[t2]  two"%string ++ [10] ++ str "INFO [t1]  one"%string ++ [10] /\ s_out (second s) = s_out (first s).
Proof.
  destruct (moves 2 (start log_programs (mkSink [] None) (mkSink [] None)) schedule_a) as [s | ] eqn:M; [ | vm_compute in M; discriminate M ].
  exists s. split; [ exact (moves_steps _ _ _ _ M) | ]. vm_compute in M. injection M as <-. split; [ | split; reflexivity ].
  intros t [<- | [<- | []]]; reflexivity.
Qed.
(** The file takes three characters: four go to the console, of two messages. *)
Lemma log_full_case : exists s, steps 2 false no_id (start log_programs (mkSink [] None) (mkSink [] (Some 3%nat))) s /\ finished s /\ s_out (first s) = str "ERRO"%string.
Proof.
  destruct (moves 2 (start log_programs (mkSink [] None) (mkSink [] (Some 3%nat))) schedule_a) as [s | ] eqn:M; [ | vm_compute in M; discriminate M ].
  exists s. split; [ exact (moves_steps _ _ _ _ M) | ]. vm_compute in M. injection M as <-. split; [ | reflexivity ].
  intros t [<- | [<- | []]]; reflexivity.
Qed.
Lemma log_full_lemma : (forall verbosity thread_enabled thread_id programs n s room, steps verbosity thread_enabled thread_id (start programs (mkSink [] room) (mkSink [] (Some n))) s -> (length (s_out (first s)) <= n + 1)%nat)
  /\ exists s, steps 2 false no_id (start log_programs (mkSink [] None) (mkSink [] (Some 3%nat))) s /\ finished s /\ s_out (first s) = str "ERRO"%string.
Proof. split; [ intros v e d programs n s room; apply limited_lemma | exact log_full_case ]. Qed.
(** A message with an operand that logs is never written to its end. *)
Lemma log_nested_lemma : (forall verbosity thread_enabled thread_id programs a b s, steps verbosity thread_enabled thread_id (start programs a b) s -> finished s ->
    forall p m, In p programs -> In m p -> verbosity <= m_level m -> plain verbosity m)
  /\ forall s, steps 2 false no_id (start [[msg_nested]] (mkSink [] None) (mkSink [] None)) s -> ~ finished s.
Proof.
  split; [ intros v e d programs a b s; apply self_wait_lemma | ]. intros s R F. 
  assert (X : plain 2 msg_nested) by (apply (self_wait_lemma 2 false no_id _ _ _ s R F [msg_nested]); [ now left | now left | vm_compute; discriminate ]).
  assert (3 < 2); [ | lia ]. apply (X (Logs 3) 3); [ right; now left | reflexivity ].
Qed.
Lemma log_programs_ok : (forall p m, In p log_programs -> In m p -> known_level m) /\ forall p m, In p log_programs -> In m p -> plain 2 m.
Proof.
  split; intros p m [<- | [<- | []]] M; [ destruct M as [<- | [<- | []]] | destruct M as [<- | []] | destruct M as [<- | [<- | []]] | destruct M as [<- | []] ].
  1-3: vm_compute; discriminate.
  all: intros o l O ->; cbn in O; repeat (destruct O as [O | O]; [ discriminate O | ]); destruct O.
Qed.
