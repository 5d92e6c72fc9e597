(** The farm and its workers: an invariant of every interleaving. *)
From Verif Require Import Base DbTable DbModel EtlModel FarmModel.
Open Scope list_scope.

Lemma nth_set_nth {A} (l : list A) i j x : nth_error (set_nth l i x) j = if Nat.eqb i j then (if (i <? length l)%nat then Some x else None) else nth_error l j.
Proof.
  revert i j. induction l as [|y l IH]; intros [|i] [|j]; cbn [set_nth nth_error Nat.eqb length]; try reflexivity.
  - destruct (Nat.eqb i j); reflexivity.
  - rewrite IH. reflexivity.
Qed.
Lemma set_nth_length {A} (l : list A) i x : length (set_nth l i x) = length l.
Proof. revert i. induction l as [|y l IH]; intros [|i]; cbn [set_nth length]; try reflexivity. now rewrite IH. Qed.
Lemma nth_lt {A} (l : list A) i x : nth_error l i = Some x -> (i < length l)%nat.
Proof. intros H. apply nth_error_Some. congruence. Qed.
Lemma bufferize_app hs a b : bufferize hs (a ++ b) = match bufferize hs a with Some (es, hs') => match bufferize hs' b with Some (es', hs'') => Some (es ++ es', hs'') | None => None end | None => None end.
Proof.
  revert hs. induction a as [|(n, x) a IH]; intros hs; cbn [bufferize app]; [destruct (bufferize hs b) as [(? & ?)|]; reflexivity|]. destruct hs as [|h hs]; [reflexivity|]. rewrite IH.
  destruct (bufferize hs a) as [(es & hs')|]; [|reflexivity]. destruct (bufferize hs' b) as [(? & ?)|]; reflexivity.
Qed.

Section Farm.
  Variable keccak : bytes -> bytes.
  Variable recover : bytes -> bytes -> bool -> option bytes.
  Variable size : N.
  Variable max_workers : nat.
  Variable ends : ending.
  Variable headers0 : list bytes.
  Variable bs : list (list package).
  Notation work := (work keccak recover size).
  Notation main_step := (main_step max_workers ends).
  Notation worker_step := (worker_step keccak recover size).
  Notation run := (run keccak recover size max_workers ends).

  (** A worker that has finished batch j. *)
  Definition has_done (j : nat) (w : worker) : Prop :=
    exists b, nth_error bs j = Some b /\ ((exists rs, work b = Ready rs /\ w_status w = ResultsReady /\ w_results w = rs) \/ (work b = Failed /\ w_status w = Error)).
  Definition resting (w : worker) : Prop := w_kicked w = false /\ (w_pc w = W_reset \/ w_pc w = W_wait).
  Definition worker_ok (c completed next j : nat) (w : worker) : Prop :=
    if (j <? c)%nat then w_status w = Idle /\ resting w
    else if (j <? completed)%nat then has_done j w /\ resting w
    else if (j <? next)%nat then
      w_id w = j
      /\ ((w_status w = Working /\ (w_pc w = W_clear \/ w_pc w = W_wait) /\ exists b, nth_error bs j = Some b /\ w_batch w = Some b)
          \/ (w_pc w = W_signal /\ w_kicked w = false /\ has_done j w)
          \/ (w_pc w = W_undefined /\ w_status w = Working /\ exists b, nth_error bs j = Some b /\ work b = Overflow))
    else w_status w = Idle /\ w_kicked w = false /\ (w_pc w = W_clear \/ w_pc w = W_wait).
  (** The results of the first c batches, none of which failed. *)
  Fixpoint results_of (l : list (list package)) : option (list (N * bytes)) :=
    match l with
    | [] => Some []
    | b :: r => match work b, results_of r with Ready rs, Some l => Some (rs ++ l) | _, _ => None end
    end.
  Definition main_ok (c next : nat) (m : mpc) : Prop :=
    match m with
    | M_next todo => c = 0%nat /\ skipn next bs = todo
    | M_scan b todo => c = 0%nat /\ skipn next bs = b :: todo
    | M_buffer b todo => skipn next bs = b :: todo
    | M_wait => c = 0%nat /\ next = length bs
    | M_last | M_end => next = length bs
    | _ => True
    end.
  Definition ids (c completed : nat) : list (nat * nat) := map (fun j => (j, j)) (seq c (completed - c)).
  Record inv (f : farm) (c : nat) : Prop := {
    i_stop : f_stop f = false;
    i_queue : f_queue f = ids c (f_completed f);
    i_c : (c <= f_completed f)%nat;
    i_completed : (f_completed f <= f_next f)%nat;
    i_next : (f_next f <= length (f_workers f))%nat;
    i_bound : (f_next f <= length bs)%nat;
    i_max : (1 <= max_workers)%nat -> (length (f_workers f) <= max_workers)%nat;
    i_workers : forall j w, nth_error (f_workers f) j = Some w -> worker_ok c (f_completed f) (f_next f) j w;
    i_collected : exists rs, results_of (firstn c bs) = Some rs /\ bufferize headers0 rs = Some (f_collected f, f_headers f);
    i_main : main_ok c (f_next f) (f_main f)
  }.
  Lemma inv_initial : inv (initial headers0 bs) 0.
  Proof.
    split; cbn [initial f_stop f_queue f_completed f_next f_workers f_main f_headers f_collected length]; try lia; try reflexivity.
    - intros [|j] w H; discriminate H.
    - exists []. split; reflexivity.
    - split; reflexivity.
  Qed.
  Lemma results_of_snoc l b rs r : results_of l = Some rs -> work b = Ready r -> results_of (l ++ [b]) = Some (rs ++ r).
  Proof.
    revert rs. induction l as [|x l IH]; intros rs H W; cbn [results_of app] in *; [injection H as <-; rewrite W, app_nil_r; reflexivity|].
    destruct (work x) as [rx| |]; try discriminate. destruct (results_of l) as [rl|]; try discriminate. injection H as <-. rewrite (IH rl eq_refl W). now rewrite app_assoc.
  Qed.
  Lemma firstn_snoc {A} (l : list A) n x : nth_error l n = Some x -> firstn (S n) l = firstn n l ++ [x].
  Proof. revert n. induction l as [|y l IH]; intros [|n] H; cbn in *; try discriminate; [now injection H as ->|]. f_equal. now apply IH. Qed.
  Lemma skipn_cons {A} (l : list A) n x r : skipn n l = x :: r -> nth_error l n = Some x /\ skipn (S n) l = r /\ (n < length l)%nat.
  Proof.
    revert n. induction l as [|y l IH]; intros [|n] H; cbn [skipn nth_error length] in *; try discriminate.
    - injection H as -> ->. repeat split. lia.
    - destruct (IH n H) as (A1 & A2 & A3). repeat split; [exact A1|exact A2|lia].
  Qed.
  Lemma skipn_all {A} (l : list A) n : (n <= length l)%nat -> skipn n l = [] -> n = length l.
  Proof. intros L H. pose proof (skipn_length n l) as E. rewrite H in E. cbn in E. lia. Qed.
  Lemma ids_cons c completed i n q : ids c completed = (i, n) :: q -> i = c /\ n = c /\ (c < completed)%nat /\ q = ids (S c) completed.
  Proof.
    unfold ids. intros H. destruct (completed - c)%nat as [|k] eqn:E; [discriminate|]. cbn [seq map] in H. injection H as <- <- <-. repeat split; [lia|]. replace (completed - S c)%nat with k by lia. reflexivity.
  Qed.
  Lemma ids_nil c completed : ids c completed = [] -> (completed <= c)%nat.
  Proof. unfold ids. intros H. destruct (completed - c)%nat eqn:E; [lia|discriminate]. Qed.
  Lemma ids_snoc c completed : (c <= completed)%nat -> ids c (S completed) = ids c completed ++ [(completed, completed)].
  Proof. intros L. unfold ids. replace (S completed - c)%nat with (S (completed - c)) by lia. rewrite seq_S, map_app. cbn [map]. do 3 f_equal; lia. Qed.

  Lemma inv_at_main f c m : inv f c -> main_ok c (f_next f) m -> inv (at_main f m) c.
  Proof. intros [] M. split; cbn [at_main f_stop f_queue f_completed f_next f_workers f_main f_headers f_collected]; assumption. Qed.
  (** Exchanging a worker. *)
  Lemma inv_worker f c i w w' : inv f c -> nth_error (f_workers f) i = Some w -> worker_ok c (f_completed f) (f_next f) i w' -> inv (with_worker f i w') c.
  Proof.
    intros [] E W. split; cbn [with_worker f_stop f_queue f_completed f_next f_workers f_main f_headers f_collected]; try assumption; rewrite ?set_nth_length; try assumption.
    intros j v H. rewrite nth_set_nth in H. destruct (Nat.eqb_spec i j) as [->|Ne]; [|now apply i_workers0]. destruct (j <? length (f_workers f))%nat; [|discriminate]. now injection H as <-.
  Qed.
  Ltac cases := repeat match goal with |- context [(?a <? ?b)%nat] => destruct (Nat.ltb_spec a b) | H : context [(?a <? ?b)%nat] |- _ => destruct (Nat.ltb_spec a b) end.
  Lemma worker_keeps i f f' c : inv f c -> worker_step i f f' -> inv f' c.
  Proof.
    intros I St. destruct St as [f w E P|f w E P K B|f w b rs E P K B W|f w b rs E P K B W|f w b E P K B W|f w E P C|f w E P]; pose proof (i_workers f c I i w E) as Wk.
    - eapply inv_worker; [exact I|exact E|]. unfold worker_ok, resting in *. cbn [w_status w_kicked w_batch w_id w_results w_pc]. cases; intuition congruence.
    - eapply inv_worker; [exact I|exact E|]. unfold worker_ok, resting in *. cbn [w_status w_kicked w_batch w_id w_results w_pc]. cases; try (intuition congruence). destruct Wk as (Id & [(S1 & S2 & b & S3 & S4)|[S1|S1]]); try (intuition congruence).
    - eapply inv_worker; [exact I|exact E|]. unfold worker_ok, resting in *. cbn [w_status w_kicked w_batch w_id w_results w_pc]. cases; try (intuition congruence). destruct Wk as (Id & [(S1 & S2 & b' & S3 & S4)|[S1|S1]]); try (intuition congruence). split; [exact Id|]. right. left. split; [reflexivity|]. split; [reflexivity|]. exists b. split; [congruence|]. left. exists rs. auto.
    - eapply inv_worker; [exact I|exact E|]. unfold worker_ok, resting in *. cbn [w_status w_kicked w_batch w_id w_results w_pc]. cases; try (intuition congruence). destruct Wk as (Id & [(S1 & S2 & b' & S3 & S4)|[S1|S1]]); try (intuition congruence). split; [exact Id|]. right. left. split; [reflexivity|]. split; [reflexivity|]. exists b. split; [congruence|]. right. auto.
    - eapply inv_worker; [exact I|exact E|]. unfold worker_ok, resting in *. cbn [w_status w_kicked w_batch w_id w_results w_pc]. cases; try (intuition congruence). destruct Wk as (Id & [(S1 & S2 & b' & S3 & S4)|[S1|S1]]); try (intuition congruence). split; [exact Id|]. right. right. split; [reflexivity|]. split; [exact S1|]. exists b. split; [congruence|exact W].
    - assert (Hi : w_id w = i /\ (f_completed f <= i < f_next f)%nat /\ w_kicked w = false /\ has_done i w).
      { unfold worker_ok, resting in Wk. cases; intuition congruence. }
      destruct Hi as (Id & Li & Kk & Hd). assert (Ec : f_completed f = i) by congruence. destruct I. split; cbn [f_stop f_queue f_completed f_next f_workers f_main f_headers f_collected]; rewrite ?set_nth_length; try assumption; try lia.
      + rewrite ids_snoc by exact i_c0. rewrite <- i_queue0. rewrite Id, Ec. reflexivity.
      + intros j v H. rewrite nth_set_nth in H. destruct (Nat.eqb_spec i j) as [<-|Ne].
        * destruct (i <? length (f_workers f))%nat; [|discriminate]. injection H as <-. unfold worker_ok, resting. cbn [w_status w_kicked w_batch w_id w_results w_pc]. destruct (Nat.ltb_spec i c) as [L1|L1]; [lia|]. destruct (Nat.ltb_spec i (S (f_completed f))) as [L2|L2]; [|lia]. split; [exact Hd|]. auto.
        * specialize (i_workers0 j v H). unfold worker_ok in *. cases; try assumption; lia.
    - eapply inv_worker; [exact I|exact E|]. unfold worker_ok, resting, has_done in *. cbn [w_status w_kicked w_batch w_id w_results w_pc]. cases; try (intuition congruence).
  Qed.
  (** A round of collecting. *)
  Lemma round_keeps f f' r c : inv f c -> (f_main f = M_last \/ exists b todo, f_main f = M_buffer b todo) -> round f f' r ->
    (f_stop f' = true /\ r = Some false /\ exists b, In b bs /\ work b = Failed)
    \/ (r = Some true /\ f' = f /\ c = f_completed f)
    \/ (r = None /\ exists c', inv f' c').
  Proof.
    intros I M R. pose proof (i_queue f c I) as Q. destruct R as [f Q0|f i n q w Q0 E S0|f i n q w es hs Q0 E S0 B|f i n q w Q0 E S0 B|f i n q w Q0 E S1 S2].
    - right. left. split; [reflexivity|]. split; [reflexivity|]. rewrite Q0 in Q. symmetry in Q. apply ids_nil in Q. pose proof (i_c f c I). lia.
    - left. split; [reflexivity|]. split; [reflexivity|]. rewrite Q0 in Q. symmetry in Q. apply ids_cons in Q as (-> & -> & L & Eq). pose proof (i_workers f c I c w E) as Wk. unfold worker_ok in Wk. destruct (Nat.ltb_spec c c); [lia|]. destruct (Nat.ltb_spec c (f_completed f)); [|lia].
      destruct Wk as ((b & Nb & [(rs & W & S1 & _)|(W & _)]) & _); [congruence|]. exists b. split; [now apply nth_error_In in Nb|exact W].
    - right. right. rewrite (i_stop f c I). split; [reflexivity|]. exists (S c). rewrite Q0 in Q. symmetry in Q. apply ids_cons in Q as (-> & -> & L & Eq). pose proof (i_workers f c I c w E) as Wk. unfold worker_ok in Wk. destruct (Nat.ltb_spec c c); [lia|]. destruct (Nat.ltb_spec c (f_completed f)); [|lia].
      destruct Wk as ((b & Nb & [(rs & W & S1 & S2)|(W & S1)]) & Rs); [|congruence]. destruct I. split; cbn [f_stop f_queue f_completed f_next f_workers f_main f_headers f_collected]; rewrite ?set_nth_length; try assumption; try lia.
      + intros j v Hj. rewrite nth_set_nth in Hj. destruct (Nat.eqb_spec c j) as [<-|Ne].
        * destruct (c <? length (f_workers f))%nat; [|discriminate]. injection Hj as <-. unfold worker_ok. destruct (Nat.ltb_spec c (S c)); [|lia]. cbn [w_status]. split; [reflexivity|exact Rs].
        * specialize (i_workers0 j v Hj). unfold worker_ok in *. cases; try assumption; lia.
      + destruct i_collected0 as (r0 & R1 & R2). exists (r0 ++ rs). split; [rewrite (firstn_snoc bs c b Nb); now apply results_of_snoc|]. rewrite bufferize_app, R2. rewrite S2 in B. rewrite B. reflexivity.
      + destruct M as [M|(b1 & todo & M)]; rewrite M in *; exact i_main0.
    - right. right. split; [reflexivity|]. exists c. apply inv_at_main; [exact I|exact Logic.I].
    - rewrite Q0 in Q. symmetry in Q. apply ids_cons in Q as (-> & -> & L & Eq). pose proof (i_workers f c I c w E) as Wk. unfold worker_ok in Wk. destruct (Nat.ltb_spec c c); [lia|]. destruct (Nat.ltb_spec c (f_completed f)); [|lia].
      destruct Wk as ((b & Nb & [(rs & W & S3 & _)|(W & S3)]) & _); congruence.
  Qed.
  Lemma main_keeps f f' c : inv f c -> main_step f f' -> (f_stop f' = true /\ exists b, In b bs /\ work b = Failed) \/ exists c', inv f' c'.
  Proof.
    intros I St. pose proof (i_main f c I) as Mk. destruct St as [f b todo M S0|f b todo M S0|f M|f b todo i w M F E|f b todo i M N1 F|f b todo M N1 N2 L|f b todo M N1 N2 L|f f' b todo M R|f f' b todo M R|f f' b todo M R|f i M F|f M N1|f f' M R|f f' r M R]; rewrite M in Mk; cbn [main_ok] in Mk.
    - right. exists c. apply inv_at_main; [exact I|exact Mk].
    - right. exists c. apply inv_at_main; [exact I|exact Logic.I].
    - right. exists c. apply inv_at_main; [exact I|]. destruct ends; try exact Logic.I; [|destruct (f_stop f); exact Logic.I]. destruct Mk as (Ec & Ek). split; [exact Ec|]. apply skipn_all; [exact (i_bound f c I)|exact Ek].
    - right. destruct Mk as (-> & Ek). destruct (skipn_cons bs (f_next f) b todo Ek) as (Nb & Et & Lb). exists 0%nat. destruct F as (w0 & E0 & S0 & Fi). assert (w0 = w) by congruence. subst w0.
      assert (Ei : i = f_next f).
      { pose proof (i_workers f 0 I i w E) as Wi. unfold worker_ok in Wi. destruct (Nat.ltb_spec i 0); [lia|]. destruct (Nat.ltb_spec i (f_completed f)) as [L1|L1]; [destruct Wi as ((b0 & _ & [(rs & _ & S1 & _)|(_ & S1)]) & _); congruence|].
        destruct (Nat.ltb_spec i (f_next f)) as [L2|L2]; [destruct Wi as (_ & [(S1 & _)|[(_ & _ & b0 & _ & [(rs & _ & S1 & _)|(_ & S1)])|(_ & S1 & _)]]); congruence|].
        destruct (Nat.eq_dec i (f_next f)) as [|Ne]; [assumption|exfalso]. pose proof (nth_lt _ _ _ E) as Li. destruct (nth_error (f_workers f) (f_next f)) as [v|] eqn:Ev; [|apply nth_error_None in Ev; lia].
        apply (Fi (f_next f) v); [lia|exact Ev|]. pose proof (i_workers f 0 I _ _ Ev) as Wv. unfold worker_ok in Wv. pose proof (i_completed f 0 I). destruct (Nat.ltb_spec (f_next f) 0); [lia|]. destruct (Nat.ltb_spec (f_next f) (f_completed f)); [lia|]. destruct (Nat.ltb_spec (f_next f) (f_next f)); [lia|]. apply Wv. }
      subst i. pose proof (nth_lt _ _ _ E) as Li. pose proof (i_workers f 0 I _ _ E) as Wi. destruct I. split; cbn [f_stop f_queue f_completed f_next f_workers f_main f_headers f_collected main_ok]; rewrite ?set_nth_length; try assumption; try lia; [|auto].
      intros j v H. rewrite nth_set_nth in H. destruct (Nat.eqb_spec (f_next f) j) as [<-|Ne].
      + destruct (f_next f <? length (f_workers f))%nat; [|discriminate]. injection H as <-. unfold worker_ok in *. cbn [w_status w_kicked w_batch w_id w_results w_pc]. destruct (Nat.ltb_spec (f_next f) 0); [lia|]. destruct (Nat.ltb_spec (f_next f) (f_completed f)); [lia|]. destruct (Nat.ltb_spec (f_next f) (f_next f)); [lia|]. destruct (Nat.ltb_spec (f_next f) (S (f_next f))); [|lia].
        split; [reflexivity|]. left. split; [reflexivity|]. split; [apply Wi|]. exists b. auto.
      + specialize (i_workers0 j v H). unfold worker_ok in *. cases; try assumption; try lia.
    - right. exists c. apply inv_at_main; [exact I|]. apply Mk.
    - right. exists c. assert (Lw : (1 <= max_workers)%nat -> (S (length (f_workers f)) <= max_workers)%nat).
      { intros Lm0. pose proof (i_max f c I Lm0) as Lm. destruct L as [L|L]; [lia|rewrite L; cbn [length]; lia]. }
      assert (Ln : length (f_workers f) = f_next f).
      { destruct Mk as (-> & Ek). pose proof (i_next f 0 I). destruct (Nat.eq_dec (length (f_workers f)) (f_next f)) as [|Ne]; [assumption|exfalso]. destruct (nth_error (f_workers f) (f_next f)) as [v|] eqn:Ev; [|apply nth_error_None in Ev; lia].
        apply (N1 v); [now apply nth_error_In in Ev|]. pose proof (i_workers f 0 I _ _ Ev) as Wv. unfold worker_ok in Wv. pose proof (i_completed f 0 I). destruct (Nat.ltb_spec (f_next f) 0); [lia|]. destruct (Nat.ltb_spec (f_next f) (f_completed f)); [lia|]. destruct (Nat.ltb_spec (f_next f) (f_next f)); [lia|]. apply Wv. }
      destruct I. split; cbn [f_stop f_queue f_completed f_next f_workers f_main f_headers f_collected]; rewrite ?app_length; cbn [length]; try assumption; try lia; try (intros Lm0; specialize (Lw Lm0); lia).
      intros j v H. destruct (Nat.lt_ge_cases j (length (f_workers f))) as [Lj|Lj]; [rewrite nth_error_app1 in H by exact Lj; now apply i_workers0|]. rewrite nth_error_app2 in H by exact Lj. destruct (j - length (f_workers f))%nat as [|k] eqn:Ej; [|destruct k; discriminate]. injection H as <-.
      unfold worker_ok. destruct (Nat.ltb_spec j c); [lia|]. destruct (Nat.ltb_spec j (f_completed f)); [lia|]. destruct (Nat.ltb_spec j (f_next f)); [lia|]. cbn. auto.
    - right. exists c. exact I.
    - destruct (round_keeps f f' _ c I ltac:(right; eauto) R) as [(_ & H & _)|[(H & _)|(_ & H)]]; [discriminate|discriminate|]. right. exact H.
    - destruct (round_keeps f f' _ c I ltac:(right; eauto) R) as [(_ & H & _)|[(_ & -> & Ec)|(H & _)]]; [discriminate| |discriminate]. right. exists c. apply inv_at_main; [exact I|exact Logic.I].
    - destruct (round_keeps f f' _ c I ltac:(right; eauto) R) as [(S1 & _ & Hb)|[(H & _)|(H & _)]]; [|discriminate|discriminate]. left. split; [exact S1|exact Hb].
    - right. exists c. exact I.
    - right. exists c. apply inv_at_main; [exact I|]. apply Mk.
    - destruct (round_keeps f f' _ c I ltac:(left; exact M) R) as [(_ & H & _)|[(H & _)|(_ & H)]]; [discriminate|discriminate|]. right. exact H.
    - destruct (round_keeps f f' _ c I ltac:(left; exact M) R) as [(S1 & _ & Hb)|[(_ & -> & Ec)|(H & _)]]; [| |discriminate]. + left. split; [exact S1|exact Hb]. + right. exists c. apply inv_at_main; [exact I|exact Mk].
  Qed.
  Lemma stop_worker i f f' : worker_step i f f' -> f_stop f' = f_stop f.
  Proof. intros []; reflexivity. Qed.
  Lemma stop_round f f' r : round f f' r -> f_stop f = true -> f_stop f' = true.
  Proof. intros [] S0; try exact S0; reflexivity. Qed.
  Lemma stop_main f f' : main_step f f' -> f_stop f = true -> f_stop f' = true.
  Proof. intros [] S0; cbn [at_main f_stop]; try exact S0; try (eapply stop_round; eassumption). Qed.
  Theorem invariant f : run (initial headers0 bs) f -> (f_stop f = true /\ exists b, In b bs /\ work b = Failed) \/ exists c, inv f c.
  Proof.
    intros R. remember (initial headers0 bs) as f0 eqn:E0. revert E0. induction R as [f|f f1 f2 R IH St|f f1 f2 i R IH St]; intros E0.
    - right. exists 0%nat. rewrite E0. apply inv_initial.
    - destruct (IH E0) as [(S1 & Hb)|(c & I)]; [left; split; [eapply stop_main; eassumption|exact Hb]|]. eapply main_keeps; eassumption.
    - destruct (IH E0) as [(S1 & Hb)|(c & I)]; [left; split; [rewrite (stop_worker i f1 f2 St); exact S1|exact Hb]|]. right. exists c. eapply worker_keeps; eassumption.
  Qed.
End Farm.
