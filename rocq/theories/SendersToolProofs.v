(** The command check_senders: an invariant of every interleaving. *)
From Verif Require Import Base DbTable DbModel EtlModel FarmModel FarmProofs SendersToolModel.
Open Scope list_scope.

Section Farm.
  Variable keccak : bytes -> bytes.
  Variable recover : bytes -> bytes -> bool -> option bytes.
  Variable max : N.
  Variable max_workers : nat.
  Variable ends : ending.
  Variable headers0 : list bytes.
  Variable bs : list (list package).
  Notation size := (max * 20)%N.
  Notation work := (work keccak recover size).
  Notation worker_step := (worker_step keccak recover size).
  Notation tool_step := (tool_step max_workers ends).
  Notation run := (tool_run keccak recover max max_workers ends).
  Notation has_done := (has_done keccak recover size bs).
  Notation results_of := (results_of keccak recover size).

  Definition idle (w : worker) : Prop := w_status w = Idle /\ w_kicked w = false /\ (w_pc w = W_clear \/ w_pc w = W_wait \/ w_pc w = W_reset).
  (** At work, or about to find that there is nothing to work on. *)
  Definition busy (w : worker) : Prop :=
    w_status w = Working /\ exists b, nth_error bs (w_id w) = Some b
      /\ (((w_pc w = W_clear \/ w_pc w = W_wait \/ (w_pc w = W_reset /\ w_kicked w = true)) /\ w_batch w = Some b) \/ (w_pc w = W_wait /\ w_batch w = None /\ w_kicked w = true) \/ w_pc w = W_undefined).
  Definition worker_fine (w : worker) : Prop :=
    idle w \/ (has_done (w_id w) w /\ resting w) \/ (has_done (w_id w) w /\ w_pc w = W_signal /\ w_kicked w = false) \/ busy w.
  Definition queue_fine (c completed : nat) (q : list (nat * nat)) (ws : list worker) : Prop :=
    (c + length q)%nat = completed /\ forall k i n, nth_error q k = Some (i, n) -> n = (c + k)%nat /\ exists w, nth_error ws i = Some w /\ w_id w = n /\ has_done n w /\ resting w.
  Definition main_fine (next : nat) (m : mpc) : Prop :=
    match m with
    | M_next todo => skipn next bs = todo
    | M_scan b todo | M_buffer b todo => skipn next bs = b :: todo
    | _ => True
    end.
  Record fine (f : farm) (c : nat) : Prop := {
    t_stop : f_stop f = false;
    t_queue : queue_fine c (f_completed f) (f_queue f) (f_workers f);
    t_bound : (f_completed f <= length bs)%nat;
    t_workers : forall w, In w (f_workers f) -> worker_fine w;
    t_collected : exists rs, results_of (firstn c bs) = Some rs /\ bufferize headers0 rs = Some (f_collected f, f_headers f);
    t_place : main_fine (f_next f) (f_main f)
  }.
  Lemma fine_initial : fine (initial headers0 bs) 0.
  Proof.
    split; cbn [initial f_stop f_queue f_completed f_next f_workers f_main f_headers f_collected]; try reflexivity.
    - split; [reflexivity|]. intros [|k] i n H; discriminate H.
    - lia.
    - intros w [].
    - exists []. split; reflexivity.
  Qed.
  Lemma fine_at_main f c m : fine f c -> main_fine (f_next f) m -> fine (at_main f m) c.
  Proof. intros [] M. split; cbn [at_main f_stop f_queue f_completed f_next f_workers f_main f_headers f_collected]; assumption. Qed.
  Lemma in_set_nth {A} (l : list A) i x y : In y (set_nth l i x) -> y = x \/ In y l.
  Proof. revert i. induction l as [|z l IH]; intros [|i] H; cbn [set_nth] in H; [destruct H|destruct H| |]; destruct H as [H|H]; [left; now symmetry|right; now right|right; now left|]. destruct (IH i H); [now left|right; now right]. Qed.
  (** A queue entry is about a worker that rests with results. *)
  Lemma queue_other c n q ws i w w' : nth_error ws i = Some w -> ~ (has_done (w_id w) w /\ resting w) -> queue_fine c n q ws -> queue_fine c n q (set_nth ws i w').
  Proof.
    intros E Nw (L & Q). split; [exact L|]. intros k j m H. destruct (Q k j m H) as (En & v & Ev & Iv & Hv & Rv). split; [exact En|]. exists v. rewrite nth_set_nth. destruct (Nat.eqb_spec i j) as [<-|Ne]; [|auto].
    exfalso. apply Nw. rewrite E in Ev. injection Ev as <-. rewrite Iv. auto.
  Qed.
  Lemma fine_worker f c i w w' : fine f c -> nth_error (f_workers f) i = Some w -> worker_fine w' -> ~ (has_done (w_id w) w /\ resting w) -> fine (with_worker f i w') c.
  Proof.
    intros [] E W Nw. split; cbn [with_worker f_stop f_queue f_completed f_next f_workers f_main f_headers f_collected]; try assumption; [eapply queue_other; eassumption|].
    intros v H. apply in_set_nth in H as [->|H]; [exact W|now apply t_workers0].
  Qed.
  Lemma done_status j w : has_done j w -> w_status w = ResultsReady \/ w_status w = Error.
  Proof. intros (b & _ & [(rs & _ & S & _)|(_ & S)]); auto. Qed.
  Lemma steps_worker i f f' c : fine f c -> worker_step i f f' -> fine f' c.
  Proof.
    intros I St. destruct St as [f w E P|f w E P K B|f w b rs E P K B W|f w b rs E P K B W|f w b E P K B W|f w E P C|f w E P]; pose proof (t_workers f c I w (nth_error_In _ _ E)) as Wk.
    - assert (Nr : ~ (has_done (w_id w) w /\ resting w)) by (intros (_ & _ & [X|X]); congruence). eapply fine_worker; [exact I|exact E| |exact Nr].
      destruct Wk as [(S0 & K0 & _)|[X|[(_ & X & _)|(S0 & b & Nb & [(_ & B)|[(X & _)|X]])]]]; [|contradiction|congruence| |congruence|congruence].
      + left. split; [exact S0|]. split; [reflexivity|]. right. left. reflexivity.
      + right. right. right. split; [exact S0|]. exists b. split; [exact Nb|]. left. split; [right; left; reflexivity|exact B].
    - assert (Nr : ~ (has_done (w_id w) w /\ resting w)) by (intros (_ & X & _); congruence). eapply fine_worker; [exact I|exact E| |exact Nr].
      destruct Wk as [(_ & X & _)|[X|[(_ & _ & X)|(S0 & b & Nb & _)]]]; [congruence|contradiction|congruence|].
      right. right. right. split; [exact S0|]. exists b. split; [exact Nb|]. right. right. reflexivity.
    - assert (Nr : ~ (has_done (w_id w) w /\ resting w)) by (intros (_ & X & _); congruence). eapply fine_worker; [exact I|exact E| |exact Nr].
      destruct Wk as [(_ & X & _)|[X|[(_ & _ & X)|(S0 & b' & Nb & [(_ & B')|[(_ & B' & _)|X]])]]]; [congruence|contradiction|congruence| |congruence|congruence].
      right. right. left. split; [|split; reflexivity]. exists b. cbn [w_id w_status w_results]. split; [congruence|]. left. exists rs. auto.
    - assert (Nr : ~ (has_done (w_id w) w /\ resting w)) by (intros (_ & X & _); congruence). eapply fine_worker; [exact I|exact E| |exact Nr].
      destruct Wk as [(_ & X & _)|[X|[(_ & _ & X)|(S0 & b' & Nb & [(_ & B')|[(_ & B' & _)|X]])]]]; [congruence|contradiction|congruence| |congruence|congruence].
      right. right. left. split; [|split; reflexivity]. exists b. cbn [w_id w_status w_results]. split; [congruence|]. right. auto.
    - assert (Nr : ~ (has_done (w_id w) w /\ resting w)) by (intros (_ & X & _); congruence). eapply fine_worker; [exact I|exact E| |exact Nr].
      destruct Wk as [(_ & X & _)|[X|[(_ & _ & X)|(S0 & b' & Nb & _)]]]; [congruence|contradiction|congruence|].
      right. right. right. split; [exact S0|]. exists b'. split; [exact Nb|]. right. right. reflexivity.
    - (* into the queue *)
      assert (Hd : has_done (w_id w) w /\ w_kicked w = false).
      { destruct Wk as [(_ & _ & [X|[X|X]])|[(_ & _ & [X|X])|[(X & _ & Y)|(_ & b & _ & [([X|[X|(X & _)]] & _)|[(X & _)|X]])]]]; try congruence. auto. }
      destruct Hd as (Hd & Kw). pose proof (nth_lt _ _ _ E) as Li.
      assert (Nr : ~ (has_done (w_id w) w /\ resting w)) by (intros (_ & _ & [X|X]); congruence).
      destruct I. split; cbn [f_stop f_queue f_completed f_next f_workers f_main f_headers f_collected]; try assumption.
      + destruct (queue_other c (f_completed f) (f_queue f) (f_workers f) i w (mkWorker (w_status w) (w_kicked w) (w_batch w) (w_id w) (w_results w) W_reset) E Nr t_queue0) as (L & Q). split; [rewrite app_length; cbn [length]; lia|]. intros k j m H.
        destruct (Nat.lt_ge_cases k (length (f_queue f))) as [Lk|Lk]; [rewrite nth_error_app1 in H by exact Lk; now apply Q|]. rewrite nth_error_app2 in H by exact Lk. destruct (k - length (f_queue f))%nat as [|x] eqn:Ex; [|destruct x; discriminate]. cbn [nth_error] in H. injection H as <- <-. split; [lia|].
        eexists. split; [rewrite nth_set_nth, Nat.eqb_refl; destruct (Nat.ltb_spec i (length (f_workers f))); [reflexivity|lia]|]. split; [reflexivity|]. split; [exact Hd|]. split; [exact Kw|]. left. reflexivity.
      + destruct Hd as (b & Nb & _). rewrite <- C in Nb. apply nth_lt in Nb. lia.
      + intros v H. apply in_set_nth in H as [->|H]; [|now apply t_workers0]. right. left. split; [exact Hd|]. split; [exact Kw|]. left. reflexivity.
    - destruct Wk as [(S0 & K0 & _)|[(Hd & K0 & _)|[(_ & X & _)|(S0 & b & Nb & [([X|[X|(_ & K1)]] & B)|[(X & _)|X]])]]]; try congruence.
      + eapply fine_worker; [exact I|exact E| |intros (X & _); apply done_status in X; destruct X; congruence]. left. split; [exact S0|]. split; [exact K0|]. right. left. reflexivity.
      + (* a worker in the queue *)
        assert (Eq : forall j, has_done j (mkWorker (w_status w) (w_kicked w) None (w_id w) (w_results w) W_wait) <-> has_done j w) by (intros j; reflexivity).
        destruct I. split; cbn [with_worker f_stop f_queue f_completed f_next f_workers f_main f_headers f_collected]; try assumption.
        * destruct t_queue0 as (L & Q). split; [exact L|]. intros k j m H. destruct (Q k j m H) as (En & v & Ev & Iv & Hv & Rv). split; [exact En|]. rewrite nth_set_nth. destruct (Nat.eqb_spec i j) as [<-|Ne]; [|exists v; auto].
          pose proof (nth_lt _ _ _ E). destruct (Nat.ltb_spec i (length (f_workers f))); [|lia]. eexists. split; [reflexivity|]. rewrite E in Ev. injection Ev as <-. split; [exact Iv|]. split; [exact (proj2 (Eq m) Hv)|]. split; [exact K0|]. right. reflexivity.
        * intros v H. apply in_set_nth in H as [->|H]; [|now apply t_workers0]. right. left. split; [exact (proj2 (Eq _) Hd)|]. split; [exact K0|]. right. reflexivity.
      + eapply fine_worker; [exact I|exact E| |intros (_ & X & _); congruence]. right. right. right. split; [exact S0|]. exists b. split; [exact Nb|]. right. left. split; [reflexivity|]. split; [reflexivity|exact K1].
  Qed.
  (** A round of collecting. *)
  Lemma steps_round f f' r c : fine f c -> round f f' r ->
    (f_stop f' = true /\ r = Some false /\ exists b, In b bs /\ work b = Failed)
    \/ (r = Some true /\ f' = f /\ c = f_completed f)
    \/ (r = None /\ exists c', fine f' c').
  Proof.
    intros I R. pose proof (t_queue f c I) as (Ql & Q). destruct R as [f Q0|f i n q w Q0 E S0|f i n q w es hs Q0 E S0 B|f i n q w Q0 E S0 B|f i n q w Q0 E S1 S2].
    - right. left. split; [reflexivity|]. split; [reflexivity|]. rewrite Q0 in Ql. cbn [length] in Ql. lia.
    - left. split; [reflexivity|]. split; [reflexivity|]. rewrite Q0 in Q. destruct (Q 0%nat i n eq_refl) as (En & v & Ev & Iv & (b & Nb & [(rs & _ & S1 & _)|(W & _)]) & _); rewrite E in Ev; injection Ev as <-; [congruence|]. exists b. split; [now apply nth_error_In in Nb|exact W].
    - right. right. rewrite (t_stop f c I). split; [reflexivity|]. exists (S c). rewrite Q0 in Q, Ql. destruct (Q 0%nat i n eq_refl) as (En & v & Ev & Iv & (b & Nb & D) & (K0 & P0)); rewrite E in Ev; injection Ev as <-. rewrite Nat.add_0_r in En. subst n. destruct D as [(rs & W & _ & Er)|(_ & S1)]; [|congruence].
      pose proof (nth_lt _ _ _ E) as Li. destruct I. split; cbn [f_stop f_queue f_completed f_next f_workers f_main f_headers f_collected]; try assumption; [reflexivity| | |].
      + split; [cbn [length] in Ql; lia|]. intros k j m H. destruct (Q (S k) j m H) as (Em & v & Ev & Iw & Hw & Rw). split; [lia|]. exists v. split; [|auto]. rewrite nth_set_nth. destruct (Nat.eqb_spec i j) as [<-|Ne]; [|exact Ev]. exfalso. rewrite E in Ev. injection Ev as <-. lia.
      + intros v H. apply in_set_nth in H as [->|H]; [|now apply t_workers0]. left. split; [reflexivity|]. split; [exact K0|]. cbn [w_pc]. destruct P0; auto.
      + destruct t_collected0 as (r0 & R1 & R2). exists (r0 ++ rs). split; [rewrite (firstn_snoc bs c b Nb); now apply results_of_snoc|]. rewrite bufferize_app, R2. rewrite Er in B. rewrite B. reflexivity.
    - right. right. split; [reflexivity|]. exists c. apply fine_at_main; [exact I|exact Logic.I].
    - exfalso. rewrite Q0 in Q. destruct (Q 0%nat i n eq_refl) as (_ & v & Ev & _ & Hd & _). rewrite E in Ev. injection Ev as <-. apply done_status in Hd as [X|X]; congruence.
  Qed.
  Lemma steps_tool f f' c : fine f c -> tool_step f f' -> (f_stop f' = true /\ exists b, In b bs /\ work b = Failed) \/ exists c', fine f' c'.
  Proof.
    intros I St. pose proof (t_place f c I) as Mk. destruct St as [f f' Nb St|f f' b todo M R|f f' b todo M R|f f' b todo M R].
    - destruct St as [f b todo M S0|f b todo M S0|f M|f b todo i w M F E|f b todo i M N1 F|f b todo M N1 N2 L|f b todo M N1 N2 L|f f' b todo M R|f f' b todo M R|f f' b todo M R|f i M F|f M N1|f f' M R|f f' r M R]; try (exfalso; exact (Nb _ _ M)); rewrite M in Mk; cbn [main_fine] in Mk.
      + right. exists c. apply fine_at_main; [exact I|exact Mk].
      + right. exists c. apply fine_at_main; [exact I|exact Logic.I].
      + right. exists c. apply fine_at_main; [exact I|]. destruct ends; try exact Logic.I. destruct (f_stop f); exact Logic.I.
      + right. exists c. destruct (skipn_cons 0 _ _ _ _ Mk) as (Eb & Et & _). destruct F as (w0 & E0 & S0 & _). rewrite E in E0. injection E0 as <-.
        assert (Nr : ~ (has_done (w_id w) w /\ resting w)) by (intros (X & _); apply done_status in X; destruct X; congruence).
        pose proof (t_workers f c I w (nth_error_In _ _ E)) as Wk. assert (Pw : w_pc w = W_clear \/ w_pc w = W_wait \/ w_pc w = W_reset).
        { destruct Wk as [(_ & _ & X)|[X|[(X & _)|(X & _)]]]; [exact X|contradiction|apply done_status in X; destruct X; congruence|congruence]. }
        destruct I. split; cbn [f_stop f_queue f_completed f_next f_workers f_main f_headers f_collected]; try assumption; [eapply queue_other; eassumption|].
        intros v H. apply in_set_nth in H as [->|H]; [|now apply t_workers0]. right. right. right. split; [reflexivity|]. exists b. cbn [w_id w_pc w_batch w_kicked]. split; [exact Eb|]. left. split; [|reflexivity]. destruct Pw as [X|[X|X]]; auto.
      + right. exists c. apply fine_at_main; [exact I|exact Mk].
      + right. exists c. destruct I. split; cbn [f_stop f_queue f_completed f_next f_workers f_main f_headers f_collected]; try assumption.
        * destruct t_queue0 as (Ql & Q). split; [exact Ql|]. intros k i n H. destruct (Q k i n H) as (En & v & Ev & X). split; [exact En|]. exists v. split; [|exact X]. rewrite nth_error_app1 by exact (nth_lt _ _ _ Ev). exact Ev.
        * intros v H. apply in_app_or in H as [H|[<-|[]]]; [now apply t_workers0|]. left. split; [reflexivity|]. split; [reflexivity|]. left. reflexivity.
      + right. exists c. exact I.
      + right. exists c. exact I.
      + right. exists c. apply fine_at_main; [exact I|exact Logic.I].
      + destruct (steps_round f f' _ c I R) as [(_ & H & _)|[(H & _)|(_ & H)]]; [discriminate|discriminate|]. right. exact H.
      + destruct (steps_round f f' _ c I R) as [(S1 & _ & Hb)|[(_ & -> & Ec)|(H & c' & I')]]; [left; split; [exact S1|exact Hb]| |discriminate]. right. exists c. apply fine_at_main; [exact I|exact Logic.I].
    - destruct (steps_round f f' _ c I R) as [(_ & H & _)|[(H & _)|(_ & H)]]; [discriminate|discriminate|]. right. exact H.
    - rewrite M in Mk. destruct (steps_round f f' _ c I R) as [(_ & H & _)|[(_ & -> & Ec)|(H & _)]]; [discriminate| |discriminate]. right. exists c. apply fine_at_main; [exact I|exact Mk].
    - destruct (steps_round f f' _ c I R) as [(S1 & _ & Hb)|[(H & _)|(H & _)]]; [|discriminate|discriminate]. left. split; [exact S1|exact Hb].
  Qed.
  Lemma tool_stop f f' : tool_step f f' -> f_stop f = true -> f_stop f' = true.
  Proof. intros [] S0; cbn [at_main f_stop]; try (eapply stop_round; eassumption). eapply stop_main; eassumption. Qed.
  Theorem tool_invariant f : run (initial headers0 bs) f -> (f_stop f = true /\ exists b, In b bs /\ work b = Failed) \/ exists c, fine f c.
  Proof.
    intros R. remember (initial headers0 bs) as f0 eqn:E0. revert E0. induction R as [f|f f1 f2 R IH St|f f1 f2 i R IH St]; intros E0.
    - right. exists 0%nat. rewrite E0. apply fine_initial.
    - destruct (IH E0) as [(S1 & Hb)|(c & I)]; [left; split; [eapply tool_stop; eassumption|exact Hb]|]. eapply steps_tool; eassumption.
    - destruct (IH E0) as [(S1 & Hb)|(c & I)]; [left; split; [rewrite (stop_worker _ _ _ i f1 f2 St); exact S1|exact Hb]|]. right. exists c. eapply steps_worker; eassumption.
  Qed.
End Farm.
