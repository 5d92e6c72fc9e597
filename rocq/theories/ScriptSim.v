(** Programs over the interface of IntraBlockState: the implementation answers as the reference machine does, and the order in which sets are iterated does not matter. *)
From stdpp Require Import gmap.
From Verif Require Import Base RlpModel TypesModel StateModel StateSpec StateProofs MemBufModel MemBufSpec MemBufProofs ScriptSpec.

(** Worlds that agree everywhere. *)
Record weq (w1 w2 : world) : Prop := {
  q_acct : forall a, w_acct w1 a = w_acct w2 a;
  q_current : forall a k, w_current w1 a k = w_current w2 a k;
  q_original : forall a k, w_original w1 a k = w_original w2 a k;
  q_gone : forall a, w_gone w1 a = w_gone w2 a;
  q_born : forall a, w_born w1 a = w_born w2 a;
  q_suicides : w_suicides w1 = w_suicides w2;
  q_logs : w_logs w1 = w_logs w2;
  q_touched : w_touched w1 = w_touched w2;
  q_refund : w_refund w1 = w_refund w2;
  q_addresses : w_addresses w1 = w_addresses w2;
  q_keys : w_keys w1 = w_keys w2
}.
Lemma weq_refl w : weq w w.
Proof. now constructor. Qed.
Lemma weq_sym a b : weq a b -> weq b a.
Proof. intros []. constructor; intros; symmetry; auto. Qed.
Lemma weq_trans a b c : weq a b -> weq b c -> weq a c.
Proof. intros [] []. constructor; intros; etransitivity; eauto. Qed.

Lemma weq_get w1 w2 a : weq w1 w2 -> w_get w1 a = w_get w2 a.
Proof. intros E. unfold w_get. now rewrite (q_acct _ _ E). Qed.
Lemma weq_exists w1 w2 a : weq w1 w2 -> w_exists w1 a = w_exists w2 a.
Proof. intros E. unfold w_exists. now rewrite (q_acct _ _ E). Qed.
Lemma weq_dead w1 w2 a : weq w1 w2 -> w_dead w1 a = w_dead w2 a.
Proof. intros E. unfold w_dead. now rewrite (q_acct _ _ E). Qed.

Ltac wq E := destruct E; constructor; cbn; intros; unfold upd; repeat match goal with |- context [?x =? ?y] => destruct (x =? y) end; auto; try congruence.

Lemma weq_modify w1 w2 a f : weq w1 w2 -> weq (w_modify w1 a f) (w_modify w2 a f).
Proof. intros E. unfold w_modify. rewrite (weq_get w1 w2 a E). wq E. Qed.
Lemma weq_touch w1 w2 a : weq w1 w2 -> weq (w_touch w1 a) (w_touch w2 a).
Proof. intros E. wq E. Qed.
Lemma weq_destruct w1 w2 a : weq w1 w2 -> weq (w_destruct w1 a) (w_destruct w2 a).
Proof. intros E. unfold w_destruct. rewrite (weq_exists w1 w2 a E), (q_gone _ _ E). wq E. Qed.
Lemma weq_swap w a b : weq (w_destruct (w_destruct w a) b) (w_destruct (w_destruct w b) a).
Proof.
  constructor; cbn; try reflexivity; try intros x; try intros k; unfold upd; unfold w_exists; cbn; unfold upd.
  - destruct (x =? b), (x =? a); reflexivity.
  - destruct (x =? b), (x =? a); reflexivity.
  - destruct (x =? b), (x =? a); reflexivity.
  - destruct (N.eqb_spec x b) as [E|E], (N.eqb_spec x a) as [F|F]; try reflexivity; destruct (N.eqb_spec b a), (N.eqb_spec a b); try reflexivity; try congruence; subst; reflexivity.
  - destruct (x =? b), (x =? a); reflexivity.
Qed.
Lemma weq_destruct_all l1 l2 : l1 ≡ₚ l2 -> forall w1 w2, weq w1 w2 -> weq (fold_left w_destruct l1 w1) (fold_left w_destruct l2 w2).
Proof.
  assert (R : forall l w1 w2, weq w1 w2 -> weq (fold_left w_destruct l w1) (fold_left w_destruct l w2)).
  { induction l as [|a l IH]; intros w1 w2 E; [exact E|]. apply IH. now apply weq_destruct. }
  induction 1 as [|a l1 l2 P IH|a b l|l1 l2 l3 P IH P' IH']; intros w1 w2 E.
  - exact E.
  - cbn [fold_left]. apply IH. now apply weq_destruct.
  - cbn [fold_left]. apply R. eapply weq_trans; [apply weq_swap|]. now do 2 apply weq_destruct.
  - eapply weq_trans; [apply (IH w1 w1), weq_refl|now apply IH'].
Qed.
Definition kill (w : world) (a : N) : world := if w_dead w a then w_destruct w a else w.
Lemma weq_kill w1 w2 a : weq w1 w2 -> weq (kill w1 a) (kill w2 a).
Proof. intros E. unfold kill. rewrite (weq_dead w1 w2 a E). destruct (w_dead w2 a); [now apply weq_destruct|exact E]. Qed.
Lemma dead_destruct w a b : a <> b -> w_dead (w_destruct w a) b = w_dead w b.
Proof. intros H. unfold w_dead. cbn. unfold upd. destruct (N.eqb_spec b a); [congruence|reflexivity]. Qed.
Lemma weq_kill_swap w a b : weq (kill (kill w a) b) (kill (kill w b) a).
Proof.
  destruct (N.eq_dec a b) as [->|H]; [apply weq_refl|]. unfold kill.
  destruct (w_dead w a) eqn:Ea, (w_dead w b) eqn:Eb; rewrite ?dead_destruct by congruence; rewrite ?Ea, ?Eb; try apply weq_refl. apply weq_swap.
Qed.
Lemma weq_kill_all l1 l2 : l1 ≡ₚ l2 -> forall w1 w2, weq w1 w2 -> weq (fold_left kill l1 w1) (fold_left kill l2 w2).
Proof.
  assert (R : forall l w1 w2, weq w1 w2 -> weq (fold_left kill l w1) (fold_left kill l w2)).
  { induction l as [|a l IH]; intros w1 w2 E; [exact E|]. apply IH. now apply weq_kill. }
  induction 1 as [|a l1 l2 P IH|a b l|l1 l2 l3 P IH P' IH']; intros w1 w2 E.
  - exact E.
  - cbn [fold_left]. apply IH. now apply weq_kill.
  - cbn [fold_left]. apply R. eapply weq_trans; [apply weq_kill_swap|]. now do 2 apply weq_kill.
  - eapply weq_trans; [apply (IH w1 w1), weq_refl|now apply IH'].
Qed.

Lemma Forall2_firstn {A B} (R : A -> B -> Prop) n : forall l1 l2, Forall2 R l1 l2 -> Forall2 R (firstn n l1) (firstn n l2).
Proof. induction n as [|n IH]; intros l1 l2 H; [constructor|]. destruct H; cbn; constructor; auto. Qed.
Lemma Forall2_nth {A B} (R : A -> B -> Prop) i : forall l1 l2 x, Forall2 R l1 l2 -> nth_error l1 i = Some x -> exists y, nth_error l2 i = Some y /\ R x y.
Proof. induction i as [|i IH]; intros l1 l2 x H E; destruct H; cbn in *; try discriminate; [injection E as <-; eauto|eauto]. Qed.

Section Ext.
  Variable keccak : bytes -> bytes.
  Definition yeq (y1 y2 : world * list world) : Prop := weq (fst y1) (fst y2) /\ Forall2 weq (snd y1) (snd y2).
  Lemma astep_weq cs1 cs2 y1 y2 o v y1' : (forall a, cs1 a = cs2 a) -> yeq y1 y2 -> astep keccak cs1 y1 o = Some (v, y1') ->
    exists y2', astep keccak cs2 y2 o = Some (v, y2') /\ yeq y1' y2'.
  Proof.
    intros Hcs. destruct y1 as [w1 sn1], y2 as [w2 sn2]. unfold yeq. cbn [fst snd]. intros [E F] H. destruct o; cbn [astep] in *;
      try (rewrite <- ?(weq_get w1 w2 _ E), <- ?(weq_exists w1 w2 _ E), <- ?(weq_dead w1 w2 _ E), <- ?(q_current _ _ E), <- ?(q_original _ _ E), <- ?(q_logs _ _ E), <- ?(q_refund _ _ E), <- ?(q_suicides _ _ E);
           injection H as <- <-; eexists; split; [reflexivity|split; assumption]).
    - rewrite <- Hcs, <- (q_gone _ _ E), <- (weq_exists w1 w2 _ E). destruct (_ && _ && _); [discriminate|]. injection H as <- <-. eexists. split; [reflexivity|]. split; [|exact F].
      cbn [fst]. rewrite (weq_get w1 w2 _ E). wq E.
    - injection H as <- <-. eexists. split; [reflexivity|]. split; [|exact F]. now apply weq_touch, weq_modify.
    - injection H as <- <-. eexists. split; [reflexivity|]. split; [|exact F]. now apply weq_touch, weq_modify.
    - injection H as <- <-. eexists. split; [reflexivity|]. split; [|exact F]. now apply weq_touch, weq_modify.
    - injection H as <- <-. eexists. split; [reflexivity|]. split; [|exact F]. now apply weq_modify.
    - injection H as <- <-. eexists. split; [reflexivity|]. split; [|exact F]. now apply weq_modify.
    - rewrite <- (weq_exists w1 w2 _ E), <- (weq_get w1 w2 _ E). destruct (_ && _); [|discriminate]. injection H as <- <-. eexists. split; [reflexivity|]. split; [|exact F]. wq E.
    - injection H as <- <-. rewrite <- (q_addresses _ _ E). eexists. split; [reflexivity|]. split; [|exact F]. wq E.
    - injection H as <- <-. rewrite <- (q_keys _ _ E). eexists. split; [reflexivity|]. split; [|exact F]. wq E.
    - injection H as <- <-. eexists. split; [reflexivity|]. split; [|exact F]. now apply weq_touch.
    - injection H as <- <-. eexists. split; [reflexivity|]. split; [|exact F]. wq E.
    - injection H as <- <-. eexists. split; [reflexivity|]. split; [|exact F]. wq E.
    - injection H as <- <-. eexists. split; [reflexivity|]. split; [|exact F]. wq E.
    - injection H as <- <-. eexists. split; [reflexivity|]. split; [|exact F]. wq E.
    - injection H as <- <-. eexists. split; [reflexivity|]. split; [exact E|]. cbn [fst snd]. apply Forall2_app; [exact F|]. constructor; [exact E|constructor].
    - destruct (nth_error sn1 i) as [saved|] eqn:Ei; [|discriminate]. injection H as <- <-. destruct (Forall2_nth _ _ _ _ _ F Ei) as (saved2 & -> & Es). eexists. split; [reflexivity|]. split; [|now apply Forall2_firstn].
      cbn [fst]. unfold w_restore. rewrite (q_touched _ _ E), (q_touched _ _ Es). wq Es.
    - injection H as <- <-. eexists. split; [reflexivity|]. split; [|constructor]. wq E.
    - injection H as <- <-. eexists. split; [reflexivity|]. split; [|constructor]. now apply weq_destruct.
    - rewrite <- (q_suicides _ _ E). destruct (bool_decide _); [|discriminate]. injection H as <- <-. eexists. split; [reflexivity|]. split; [|constructor]. now apply weq_destruct_all.
    - rewrite <- (q_touched _ _ E). destruct (bool_decide _); [|discriminate]. injection H as <- <-. eexists. split; [reflexivity|]. split; [|constructor]. now apply weq_kill_all.
    - injection H as <- <-. eexists. split; [reflexivity|]. split; [|constructor]. wq E.
  Qed.

  (** The order of iteration is immaterial. *)
  Definition orderly (iterate : gset N -> list N) : Prop := forall X, iterate X ≡ₚ elements X.
  Lemma script_ext {A} it1 it2 cs1 cs2 (t : script A) : orderly it1 -> orderly it2 -> (forall a, cs1 a = cs2 a) -> forall y1 y2 a ops y1', yeq y1 y2 ->
    arun_script keccak it1 cs1 t y1 = Some (a, ops, y1') ->
    exists ops2 y2', arun_script keccak it2 cs2 t y2 = Some (a, ops2, y2') /\ yeq y1' y2' /\ length ops2 = length ops /\ flat_map op_code ops2 = flat_map op_code ops.
  Proof.
    intros O1 O2 Hcs. induction t as [b|o k IH|k IH|k IH]; intros y1 y2 a ops y1' E; cbn [arun_script].
    - intros [= <- <- <-]. exists [], y2. auto.
    - destruct (astep keccak cs1 y1 o) as [[v y1a]|] eqn:Es; [|discriminate]. destruct (arun_script keccak it1 cs1 (k v) y1a) as [[[a1 ops1] y1b]|] eqn:Er; [|discriminate]. intros [= <- <- <-].
      destruct (astep_weq _ _ _ _ _ _ _ Hcs E Es) as (y2a & -> & E2). destruct (IH v _ _ _ _ _ E2 Er) as (ops2 & y2b & -> & E3 & L & F). exists (o :: ops2), y2b. split; [reflexivity|].
      split; [exact E3|]. split; [cbn; congruence|cbn; congruence].
    - destruct y1 as [w1 sn1], y2 as [w2 sn2]. destruct E as [E EF]. cbn [fst snd astep] in *. rewrite !bool_decide_true by apply O1. rewrite bool_decide_true by apply O2.
      destruct (arun_script keccak it1 cs1 k _) as [[[a1 ops1] y1b]|] eqn:Er; [|discriminate]. intros [= <- <- <-].
      edestruct (IH (fold_left w_destruct (it1 (w_suicides w1)) w1, []) (fold_left w_destruct (it2 (w_suicides w2)) w2, [])) as (ops2 & y2b & -> & E3 & L & F); [|exact Er|].
      + split; [|constructor]. cbn [fst]. apply weq_destruct_all; [|exact E]. rewrite (q_suicides _ _ E), (O1 _), (O2 _). reflexivity.
      + eexists _, y2b. split; [reflexivity|]. split; [exact E3|]. split; [cbn; congruence|cbn; congruence].
    - destruct y1 as [w1 sn1], y2 as [w2 sn2]. destruct E as [E EF]. cbn [fst snd astep] in *. rewrite !bool_decide_true by apply O1. rewrite bool_decide_true by apply O2.
      destruct (arun_script keccak it1 cs1 k _) as [[[a1 ops1] y1b]|] eqn:Er; [|discriminate]. intros [= <- <- <-].
      edestruct (IH (fold_left kill (it1 (w_touched w1)) w1, []) (fold_left kill (it2 (w_touched w2)) w2, [])) as (ops2 & y2b & E2 & E3 & L & F); [|exact Er|].
      + split; [|constructor]. cbn [fst]. apply weq_kill_all; [|exact E]. rewrite (q_touched _ _ E), (O1 _), (O2 _). reflexivity.
      + unfold kill in E2. rewrite E2. eexists _, y2b. split; [reflexivity|]. split; [exact E3|]. split; [cbn; congruence|cbn; congruence].
  Qed.

  (** A program on the reference machine is one of its histories. *)
  Lemma script_arun {A} it cs (t : script A) : forall y a ops y', arun_script keccak it cs t y = Some (a, ops, y') -> exists vs, arun keccak cs y ops = Some (vs, y').
  Proof.
    induction t as [b|o k IH|k IH|k IH]; intros y a ops y'; cbn [arun_script].
    - intros [= _ <- <-]. now exists [].
    - destruct (astep keccak cs y o) as [[v y1]|] eqn:Es; [|discriminate]. destruct (arun_script keccak it cs (k v) y1) as [[[a1 ops1] y2]|] eqn:Er; [|discriminate]. intros [= _ <- <-].
      destruct (IH v _ _ _ _ Er) as (vs & Ev). exists (v :: vs). cbn [arun]. now rewrite Es, Ev.
    - destruct (astep keccak cs y _) as [[v y1]|] eqn:Es; [|discriminate]. destruct (arun_script keccak it cs k y1) as [[[a1 ops1] y2]|] eqn:Er; [|discriminate]. intros [= _ <- <-].
      destruct (IH _ _ _ _ Er) as (vs & Ev). exists (v :: vs). cbn [arun]. now rewrite Es, Ev.
    - destruct (astep keccak cs y _) as [[v y1]|] eqn:Es; [|discriminate]. destruct (arun_script keccak it cs k y1) as [[[a1 ops1] y2]|] eqn:Er; [|discriminate]. intros [= _ <- <-].
      destruct (IH _ _ _ _ Er) as (vs & Ev). exists (v :: vs). cbn [arun]. now rewrite Es, Ev.
  Qed.
End Ext.

Section Sim.
  Variables keccak code_of : bytes -> bytes.
  Variable iterate : gset N -> list N.
  Variable db : db_reader.
  Variable room : N.
  Hypothesis Hdb : db_ok keccak code_of db room.
  Hypothesis Hempty : keccak [] = kEmptyHash.
  Hypothesis Hcempty : code_of kEmptyHash = [].
  Notation rel := (rel keccak code_of db room).

  Lemma script_sim {A} (t : script A) : forall n x y a ops y', rel n x y -> n + N.of_nat (length ops) <= room -> (forall c, In c (flat_map op_code ops) -> code_of (keccak c) = c) ->
    arun_script keccak iterate (db_contract db) t y = Some (a, ops, y') ->
    exists x' n', crun_script keccak iterate db t x = (a, x') /\ snd (crun keccak db x ops) = x' /\ n' <= n + N.of_nat (length ops) /\ rel n' x' y'.
  Proof.
    assert (Step : forall n x y o v y1 ops, rel n x y -> n + N.of_nat (length (o :: ops)) <= room -> (forall c, In c (flat_map op_code (o :: ops)) -> code_of (keccak c) = c) ->
      astep keccak (db_contract db) y o = Some (v, y1) -> exists x1 n1, cstep keccak db x o = (v, x1) /\ n1 <= n + 1 /\ rel n1 x1 y1).
    { intros n x y o v y1 ops Hr Hn Hc Hs. cbn [length flat_map] in *. eapply step_sim; try eassumption; [lia|]. intros c H. apply Hc, in_or_app. now left. }
    induction t as [b|o k IH|k IH|k IH]; intros n x y a ops y' Hr Hn Hc; cbn [arun_script crun_script].
    - intros [= <- <- <-]. exists x, n. split; [reflexivity|]. split; [reflexivity|]. split; [cbn; lia|exact Hr].
    - destruct (astep keccak (db_contract db) y o) as [[v y1]|] eqn:Es; [|discriminate]. destruct (arun_script keccak iterate (db_contract db) (k v) y1) as [[[a1 ops1] y2]|] eqn:Er; [|discriminate]. intros [= <- <- <-].
      destruct (Step n x y o v y1 ops1 Hr Hn Hc Es) as (x1 & n1 & E1 & Hn1 & Hr1). cbn [crun]. rewrite E1. cbn [length flat_map] in *.
      destruct (IH v n1 x1 y1 _ ops1 _ Hr1 ltac:(lia) ltac:(intros c H; apply Hc, in_or_app; now right) Er) as (x2 & n2 & E2 & E3 & Hn2 & Hr2).
      exists x2, n2. split; [exact E2|]. split; [destruct (crun keccak db x1 ops1); exact E3|]. split; [lia|exact Hr2].
    - assert (Eq : self_destructs (fst x) = w_suicides (fst y)) by exact (r_sui _ _ _ _ (r_0 _ _ _ _ (rel_R _ _ _ _ _ _ _ Hr))). rewrite Eq.
      destruct (astep keccak (db_contract db) y _) as [[v y1]|] eqn:Es; [|discriminate]. destruct (arun_script keccak iterate (db_contract db) k y1) as [[[a1 ops1] y2]|] eqn:Er; [|discriminate]. intros [= <- <- <-].
      destruct (Step n x y _ v y1 ops1 Hr Hn Hc Es) as (x1 & n1 & E1 & Hn1 & Hr1). cbn [crun]. rewrite E1. cbn [length flat_map] in *.
      destruct (IH n1 x1 y1 _ ops1 _ Hr1 ltac:(lia) ltac:(intros c H; apply Hc, in_or_app; now right) Er) as (x2 & n2 & E2 & E3 & Hn2 & Hr2).
      exists x2, n2. split; [exact E2|]. split; [destruct (crun keccak db x1 ops1); exact E3|]. split; [lia|exact Hr2].
    - assert (Eq : touched (fst x) = w_touched (fst y)) by exact (R_touched _ _ _ _ (rel_R _ _ _ _ _ _ _ Hr)). rewrite Eq.
      destruct (astep keccak (db_contract db) y _) as [[v y1]|] eqn:Es; [|discriminate]. destruct (arun_script keccak iterate (db_contract db) k y1) as [[[a1 ops1] y2]|] eqn:Er; [|discriminate]. intros [= <- <- <-].
      destruct (Step n x y _ v y1 ops1 Hr Hn Hc Es) as (x1 & n1 & E1 & Hn1 & Hr1). cbn [crun]. rewrite E1. cbn [length flat_map] in *.
      destruct (IH n1 x1 y1 _ ops1 _ Hr1 ltac:(lia) ltac:(intros c H; apply Hc, in_or_app; now right) Er) as (x2 & n2 & E2 & E3 & Hn2 & Hr2).
      exists x2, n2. split; [exact E2|]. split; [destruct (crun keccak db x1 ops1); exact E3|]. split; [lia|exact Hr2].
  Qed.
End Sim.
