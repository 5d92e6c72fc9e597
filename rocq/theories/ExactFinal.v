(** The machine of ExactSpec at a transaction boundary. *)
From stdpp Require Import gmap.
From Verif Require Import Base RlpModel TypesModel StateModel StateSpec ExactSpec ExactProofs ExactLemmas StateLemmas.

(** ** The reference machine does not depend on how the xworld's functions are presented *)
Record xeq (w w' : xworld) : Prop := {
  e_acct : forall a, x_acct w a = x_acct w' a;
  e_cur : forall a k, x_current w a k = x_current w' a k;
  e_orig : forall a k, x_original w a k = x_original w' a k;
  e_rest : (x_suicides w, x_logs w, x_touched w, x_refund w, x_addresses w, x_keys w) = (x_suicides w', x_logs w', x_touched w', x_refund w', x_addresses w', x_keys w')
}.

Lemma xeq_refl w : xeq w w.
Proof. constructor; auto. Qed.

Lemma xeq_get w w' a : xeq w w' -> x_get w a = x_get w' a.
Proof. intros H. unfold x_get. now rewrite (e_acct _ _ H). Qed.
Lemma xeq_exists w w' a : xeq w w' -> x_exists w a = x_exists w' a.
Proof. intros H. unfold x_exists. now rewrite (e_acct _ _ H). Qed.
Lemma xeq_dead w w' a : xeq w w' -> x_dead w a = x_dead w' a.
Proof. intros H. unfold x_dead. now rewrite (e_acct _ _ H). Qed.
Lemma xeq_modify w w' a f : xeq w w' -> xeq (x_modify w a f) (x_modify w' a f).
Proof.
  intros H. pose proof (xeq_get _ _ a H) as G. destruct H. constructor; cbn; auto. intros b. unfold upd. rewrite G. destruct (b =? a); auto.
Qed.
Lemma xeq_sub w w' su lo to re ad ke : xeq w w' -> xeq (x_set_sub w su lo to re ad ke) (x_set_sub w' su lo to re ad ke).
Proof. intros H. destruct H. constructor; cbn; auto. Qed.
Lemma xeq_touch w w' a : xeq w w' -> xeq (x_touch w a) (x_touch w' a).
Proof. intros H. unfold x_touch. pose proof (e_rest _ _ H) as E. injection E as -> -> -> -> -> ->. now apply xeq_sub. Qed.
Lemma xeq_destruct w w' a : xeq w w' -> xeq (x_destruct w a) (x_destruct w' a).
Proof.
  intros H. destruct H. constructor; cbn; auto; intros b; intros; unfold upd; destruct (b =? a); auto.
Qed.
Lemma xeq_destructs l : forall w w', xeq w w' -> xeq (fold_left x_destruct l w) (fold_left x_destruct l w').
Proof. induction l as [|a t IH]; intros w w' H; cbn; [exact H|]. apply IH. now apply xeq_destruct. Qed.
Lemma xeq_dead_destructs l : forall w w', xeq w w' ->
  xeq (fold_left (fun w a => if x_dead w a then x_destruct w a else w) l w) (fold_left (fun w a => if x_dead w a then x_destruct w a else w) l w').
Proof.
  induction l as [|a t IH]; intros w w' H; cbn; [exact H|]. apply IH. rewrite (xeq_dead _ _ a H). destruct (x_dead w' a); [now apply xeq_destruct|exact H].
Qed.

Lemma xeq_nth sn sn' i s : Forall2 xeq sn sn' -> nth_error sn i = Some s -> exists s', nth_error sn' i = Some s' /\ xeq s s'.
Proof.
  intros H. revert i. induction H as [|x y l l' Hxy Hl IH]; intros [|i]; cbn; try discriminate; [intros [= <-]; eauto|apply IH].
Qed.
Lemma xeq_firstn sn sn' k : Forall2 xeq sn sn' -> Forall2 xeq (firstn k sn) (firstn k sn').
Proof. intros H. revert k. induction H; intros [|k]; cbn; constructor; auto. Qed.

Lemma xeq_step keccak code_of db w sn o v w1 sn1 w' sn' : xeq w w' -> Forall2 xeq sn sn' -> xstep keccak code_of db (w, sn) o = Some (v, (w1, sn1)) ->
  exists w1' sn1', xstep keccak code_of db (w', sn') o = Some (v, (w1', sn1')) /\ xeq w1 w1' /\ Forall2 xeq sn1 sn1'.
Proof.
  intros H Hs E. pose proof (e_rest _ _ H) as Er. injection Er as E1 E2 E3 E4 E5 E6.
  destruct o; cbn [xstep] in *.
  - injection E as <- <- <-. exists w', sn'. now rewrite (xeq_exists _ _ a H).
  - injection E as <- <- <-. exists w', sn'. now rewrite (xeq_dead _ _ a H).
  - injection E as <- <- <-. exists w', sn'. now rewrite (xeq_get _ _ a H).
  - injection E as <- <- <-. exists w', sn'. now rewrite (xeq_get _ _ a H).
  - injection E as <- <- <-. exists w', sn'. now rewrite (xeq_get _ _ a H).
  - injection E as <- <- <-. exists w', sn'. now rewrite (xeq_get _ _ a H).
  - injection E as <- <- <-. exists w', sn'. now rewrite (xeq_exists _ _ a H), (e_cur _ _ H).
  - injection E as <- <- <-. exists w', sn'. now rewrite (xeq_exists _ _ a H), (e_orig _ _ H).
  - injection E as <- <- <-. eexists _, _. split; [reflexivity|]. split; [|exact Hs].
    assert (En : next_incarnation db w a = next_incarnation db w' a) by (unfold next_incarnation; now rewrite (e_acct _ _ H)).
    rewrite (xeq_get _ _ a H), En. unfold created_storage. rewrite En. destruct H. constructor; cbn; auto; intros b; intros; unfold upd; destruct (b =? a); auto.
  - injection E as <- <- <-. eexists _, _. split; [reflexivity|]. split; [|exact Hs]. now apply xeq_touch, xeq_modify.
  - injection E as <- <- <-. eexists _, _. split; [reflexivity|]. split; [|exact Hs]. now apply xeq_touch, xeq_modify.
  - injection E as <- <- <-. eexists _, _. split; [reflexivity|]. split; [|exact Hs]. now apply xeq_touch, xeq_modify.
  - injection E as <- <- <-. eexists _, _. split; [reflexivity|]. split; [|exact Hs]. now apply xeq_modify.
  - injection E as <- <- <-. eexists _, _. split; [reflexivity|]. split; [|exact Hs]. now apply xeq_modify.
  - rewrite (xeq_exists _ _ a H) in E. destruct (x_exists w' a); [|discriminate]. injection E as <- <- <-.
    eexists _, _. split; [reflexivity|]. split; [|exact Hs]. destruct H. constructor; cbn; auto; intros b j; unfold upd; destruct (b =? a); auto; destruct (j =? k); auto.
  - injection E as <- <- <-. rewrite <- E5. eexists _, _. split; [reflexivity|]. split; [|exact Hs]. rewrite E1, E2, E3, E4, E5, E6. now apply xeq_sub.
  - injection E as <- <- <-. rewrite <- E6. eexists _, _. split; [reflexivity|]. split; [|exact Hs]. rewrite E1, E2, E3, E4, E5, E6. now apply xeq_sub.
  - injection E as <- <- <-. eexists _, _. split; [reflexivity|]. split; [|exact Hs]. now apply xeq_touch.
  - injection E as <- <- <-. eexists _, _. split; [reflexivity|]. split; [|exact Hs]. rewrite E1, E2, E3, E4, E5, E6. now apply xeq_sub.
  - injection E as <- <- <-. eexists _, _. split; [reflexivity|]. split; [|exact Hs]. rewrite E1, E2, E3, E4, E5, E6. now apply xeq_sub.
  - injection E as <- <- <-. eexists _, _. split; [reflexivity|]. split; [|exact Hs]. rewrite E1, E2, E3, E4, E5, E6. now apply xeq_sub.
  - injection E as <- <- <-. eexists _, _. split; [reflexivity|]. split; [|exact Hs]. rewrite E1, E2, E3, E4, E5, E6. now apply xeq_sub.
  - injection E as <- <- <-. rewrite E1. now exists w', sn'.
  - injection E as <- <- <-. rewrite E2. now exists w', sn'.
  - injection E as <- <- <-. rewrite E4. now exists w', sn'.
  - injection E as <- <- <-. eexists _, _. split; [reflexivity|]. split; [exact H|]. apply Forall2_app; [exact Hs|]. constructor; [exact H|constructor].
  - destruct (nth_error sn i) as [s|] eqn:En; [|discriminate]. injection E as <- <- <-. destruct (xeq_nth _ _ _ _ Hs En) as (s' & -> & Hss).
    eexists _, _. split; [reflexivity|]. split; [|now apply xeq_firstn]. unfold x_restore. pose proof (e_rest _ _ Hss) as Er. injection Er as F1 F2 F3 F4 F5 F6.
    rewrite F1, F2, F3, F4, F5, F6, E3. now apply xeq_sub.
  - injection E as <- <- <-. eexists _, _. split; [reflexivity|]. split; [|constructor]. destruct H. constructor; cbn; auto.
  - injection E as <- <- <-. eexists _, _. split; [reflexivity|]. split; [|constructor]. now apply xeq_destruct.
  - injection E as <- <- <-. eexists _, _. split; [reflexivity|]. split; [|constructor]. now apply xeq_destructs.
  - injection E as <- <- <-. eexists _, _. split; [reflexivity|]. split; [|constructor]. now apply xeq_dead_destructs.
  - injection E as <- <- <-. eexists _, _. split; [reflexivity|]. split; [|constructor]. now apply xeq_sub.
Qed.
Lemma xeq_run keccak code_of db ops : forall w sn vs w1 sn1 w' sn', xeq w w' -> Forall2 xeq sn sn' -> xrun keccak code_of db (w, sn) ops = Some (vs, (w1, sn1)) ->
  exists w1' sn1', xrun keccak code_of db (w', sn') ops = Some (vs, (w1', sn1')) /\ xeq w1 w1' /\ Forall2 xeq sn1 sn1'.
Proof.
  induction ops as [|o t IH]; intros w sn vs w1 sn1 w' sn' H Hs E; cbn [xrun] in *.
  - injection E as <- <- <-. now exists w', sn'.
  - destruct (xstep keccak code_of db (w, sn) o) as [[v [w2 sn2]]|] eqn:Eo; [|discriminate]. destruct (xrun keccak code_of db (w2, sn2) t) as [[vt [w3 sn3]]|] eqn:Et; [|discriminate]. injection E as <- <- <-.
    destruct (xeq_step _ _ _ _ _ _ _ _ _ _ _ H Hs Eo) as (w2' & sn2' & -> & H2 & Hs2). destruct (IH _ _ _ _ _ _ _ H2 Hs2 Et) as (w3' & sn3' & -> & H3 & Hs3). now exists w3', sn3'.
Qed.

(** ** Transaction boundary *)
Lemma fold_destruct_xworld l : forall w, xeq (fold_left x_destruct l w)
  (mkX (fun a => if bool_decide (a ∈ l) then None else x_acct w a) (fun a k => if bool_decide (a ∈ l) then 0 else x_current w a k)
     (fun a k => if bool_decide (a ∈ l) then 0 else x_original w a k)  (x_suicides w) (x_logs w) (x_touched w) (x_refund w) (x_addresses w) (x_keys w)).
Proof.
  induction l as [|b l IH]; intros w.
  - assert (F : forall a : N, bool_decide (a ∈ []) = false) by (intros a; apply bool_decide_false; set_solver).
    constructor; cbn; intros; rewrite ?F; reflexivity.
  - cbn [fold_left]. specialize (IH (x_destruct w b)). destruct IH as [I1 I2 I3 I6]. cbn in *.
    assert (D : forall a, bool_decide (a ∈ b :: l) = (a =? b) || bool_decide (a ∈ l)).
    { intros a. destruct (N.eqb_spec a b) as [->|Hn]; [apply bool_decide_true; set_solver|]. cbn. apply bool_decide_ext. set_solver. }
    constructor; cbn; intros; rewrite ?D.
    + rewrite I1. unfold upd. destruct (a =? b), (bool_decide (a ∈ l)); reflexivity.
    + rewrite I2. unfold upd. destruct (a =? b), (bool_decide (a ∈ l)); reflexivity.
    + rewrite I3. unfold upd. destruct (a =? b), (bool_decide (a ∈ l)); reflexivity.
    + exact I6.
Qed.
Lemma fold_dead_xworld l : forall w, xeq (fold_left (fun w a => if x_dead w a then x_destruct w a else w) l w)
  (let g a := bool_decide (a ∈ l) && x_dead w a in
   mkX (fun a => if g a then None else x_acct w a) (fun a k => if g a then 0 else x_current w a k)
     (fun a k => if g a then 0 else x_original w a k)  (x_suicides w) (x_logs w) (x_touched w) (x_refund w) (x_addresses w) (x_keys w)).
Proof.
  induction l as [|b l IH]; intros w.
  - assert (F : forall a : N, bool_decide (a ∈ []) = false) by (intros a; apply bool_decide_false; set_solver).
    constructor; cbn; intros; rewrite ?F; reflexivity.
  - cbn [fold_left].
    assert (D : forall a, bool_decide (a ∈ b :: l) = (a =? b) || bool_decide (a ∈ l)).
    { intros a. destruct (N.eqb_spec a b) as [->|Hn]; [apply bool_decide_true; set_solver|]. cbn. apply bool_decide_ext. set_solver. }
    destruct (x_dead w b) eqn:Eb.
    + specialize (IH (x_destruct w b)). destruct IH as [I1 I2 I3 I6]. cbn in *.
      assert (Dd : forall a, x_dead (x_destruct w b) a = (a =? b) || x_dead w a).
      { intros a. unfold x_dead. cbn. unfold upd. destruct (a =? b); reflexivity. }
      constructor; cbn; intros; rewrite ?D.
      * rewrite I1, Dd. unfold upd. destruct (N.eqb_spec a b) as [->|]; cbn; [rewrite Eb; destruct (bool_decide (b ∈ l)); reflexivity|reflexivity].
      * rewrite I2, Dd. unfold upd. destruct (N.eqb_spec a b) as [->|]; cbn; [rewrite Eb; destruct (bool_decide (b ∈ l)); reflexivity|reflexivity].
      * rewrite I3, Dd. unfold upd. destruct (N.eqb_spec a b) as [->|]; cbn; [rewrite Eb; destruct (bool_decide (b ∈ l)); reflexivity|reflexivity].
      * exact I6.
    + specialize (IH w). destruct IH as [I1 I2 I3 I6]. cbn in *. constructor; cbn; intros; rewrite ?D; rewrite ?I1, ?I2, ?I3; try exact I6;
        (destruct (N.eqb_spec a b) as [->|]; cbn; [|reflexivity]; rewrite Eb, ?andb_false_r; reflexivity).
Qed.

Lemma xeq_trans a b c : xeq a b -> xeq b c -> xeq a c.
Proof. intros [] []. constructor; intros; etransitivity; eauto. Qed.

Lemma boundary_xworld eip161 w ls lt : ls ≡ₚ elements (x_suicides w) -> lt ≡ₚ elements (x_touched w) -> forall keccak code_of db sn, exists w2,
  xrun keccak code_of db (w, sn) (x_boundary eip161 ls lt) = Some (map (fun _ => VUnit) (x_boundary eip161 ls lt), (w2, [])) /\ xeq w2 (x_after_boundary eip161 w).
Proof.
  intros Hs Ht keccak code_of db sn. unfold x_boundary. cbn [xrun xstep app]. pose proof (fold_destruct_xworld ls w) as F. set (w1 := fold_left x_destruct ls w) in *.
  assert (Ms : forall a, bool_decide (a ∈ ls) = bool_decide (a ∈ x_suicides w)) by (intros a; apply bool_decide_ext; rewrite Hs; apply elem_of_elements).
  assert (Mt : forall a, bool_decide (a ∈ lt) = bool_decide (a ∈ x_touched w)) by (intros a; apply bool_decide_ext; rewrite Ht; apply elem_of_elements).
  assert (Dd : forall a, x_dead w1 a = bool_decide (a ∈ x_suicides w) || x_dead w a).
  { intros a. unfold x_dead. rewrite (e_acct _ _ F). cbn. rewrite Ms. destruct (bool_decide _); reflexivity. }
  destruct eip161; cbn [app xrun xstep map].
  - pose proof (fold_dead_xworld lt w1) as G. set (w2 := fold_left _ lt w1) in *. cbn [xrun xstep]. eexists. split; [reflexivity|].
    destruct F as [F1 F2 F3 F6], G as [G1 G2 G3 G6]. cbn in *. constructor; cbn; intros.
    + rewrite G1, F1, Dd, Ms, Mt. unfold x_vanishes. destruct (bool_decide (a ∈ x_suicides w)), (bool_decide (a ∈ x_touched w)), (x_dead w a); reflexivity.
    + rewrite G2, F2, Dd, Ms, Mt. unfold x_vanishes. destruct (bool_decide (a ∈ x_suicides w)), (bool_decide (a ∈ x_touched w)), (x_dead w a); reflexivity.
    + rewrite G2, F2, Dd, Ms, Mt. unfold x_vanishes. destruct (bool_decide (a ∈ x_suicides w)), (bool_decide (a ∈ x_touched w)), (x_dead w a); reflexivity.
    + reflexivity.
  - eexists. split; [reflexivity|]. destruct F as [F1 F2 F3 F6]. cbn in *. constructor; cbn; intros.
    + rewrite F1, Ms. unfold x_vanishes. destruct (bool_decide (a ∈ x_suicides w)); reflexivity.
    + rewrite F2, Ms. unfold x_vanishes. destruct (bool_decide (a ∈ x_suicides w)); reflexivity.
    + rewrite F2, Ms. unfold x_vanishes. destruct (bool_decide (a ∈ x_suicides w)); reflexivity.
    + reflexivity.
Qed.

(** ** C26 *)
Lemma exact_boundary keccak code_of db eip161 P T ls lt vp w sn vt y : db_sound code_of db -> codes_apart keccak code_of (P ++ x_boundary eip161 ls lt ++ T) ->
  xrun keccak code_of db (xworld_of db, []) P = Some (vp, (w, sn)) ->
  ls ≡ₚ elements (x_suicides w) -> lt ≡ₚ elements (x_touched w) ->
  xrun keccak code_of db (x_after_boundary eip161 w, []) T = Some (vt, y) ->
  replies keccak db (P ++ x_boundary eip161 ls lt ++ T) = vp ++ map (fun _ => VUnit) (x_boundary eip161 ls lt) ++ vt.
Proof.
  intros Hdb Hc HP Hs Ht HT. destruct (boundary_xworld eip161 w ls lt Hs Ht keccak code_of db sn) as (w2 & Eb & Hw). destruct y as [wy sny].
  assert (Hw' : xeq (x_after_boundary eip161 w) w2) by (destruct Hw; constructor; auto).
  destruct (xeq_run _ _ _ _ _ _ _ _ _ _ [] Hw' ltac:(constructor) HT) as (w3 & sn3 & ET & _).
  eapply (exact_answers keccak code_of db Hdb); [exact Hc|]. rewrite xrun_app, HP, xrun_app, Eb, ET. reflexivity.
Qed.

(** The answer to one more call. *)
Definition reply keccak db (P : list op) (q : op) : obs := last (replies keccak db (P ++ [q])) VUnit.

Definition is_true_reply (v : obs) : bool := match v with VBool b => b | _ => false end.

(** What each query sees after the boundary, in terms of what it saw before. *)
Lemma boundary_observed keccak code_of db eip161 P ls lt : db_sound code_of db -> codes_apart keccak code_of P -> lawful keccak db (ibs_new, []) P = true ->
  ls ≡ₚ elements (self_destructs (fst (after keccak db P))) -> lt ≡ₚ elements (touched (fst (after keccak db P))) ->
  let P' := P ++ x_boundary eip161 ls lt in
  (forall a k,
    let gone := bool_decide (a ∈ self_destructs (fst (after keccak db P)))
      || eip161 && bool_decide (a ∈ touched (fst (after keccak db P))) && is_true_reply (reply keccak db P (OIsDead a)) in
    reply keccak db P' (OExists a) = (if gone then VBool false else reply keccak db P (OExists a))
    /\ reply keccak db P' (OBalance a) = (if gone then VNum 0 else reply keccak db P (OBalance a))
    /\ reply keccak db P' (ONonce a) = (if gone then VNum 0 else reply keccak db P (ONonce a))
    /\ reply keccak db P' (OCode a) = (if gone then VBytes [] else reply keccak db P (OCode a))
    /\ reply keccak db P' (OCodeHash a) = (if gone then VBytes kEmptyHash else reply keccak db P (OCodeHash a))
    /\ reply keccak db P' (OCurrent a k) = (if gone then VNum 0 else reply keccak db P (OCurrent a k))
    /\ reply keccak db P' (OOriginal a k) = reply keccak db P' (OCurrent a k)
    /\ reply keccak db P' (OAccessAccount a) = VBool true /\ reply keccak db P' (OAccessStorage a k) = VBool true)
  /\ reply keccak db P' OLogs = VLogs [] /\ reply keccak db P' ORefund = VNum 0 /\ reply keccak db P' OSuicides = VNum 0
  /\ self_destructs (fst (after keccak db P')) = ∅ /\ touched (fst (after keccak db P')) = ∅.
Proof.
  intros Hdb Hc Hl Hs Ht P'. destruct (lawful_answers keccak code_of db Hdb P Hc Hl) as ([w sn] & E).
  destruct (exact_answers keccak code_of db Hdb P _ _ Hc E) as (_ & Et & Es & _). cbn [fst] in Et, Es. rewrite Et, Es in *.
  assert (Cq : forall q, op_code q = [] -> codes_apart keccak code_of (P ++ [q])).
  { intros q Hq. destruct Hc as (C1 & C2). split; [exact C1|]. rewrite flat_map_app. cbn. rewrite Hq. cbn. now rewrite app_nil_r. }
  assert (Cb : codes_apart keccak code_of P').
  { destruct Hc as (C1 & C2). split; [exact C1|]. unfold P'. rewrite flat_map_app. unfold x_boundary. destruct eip161; cbn; now rewrite app_nil_r. }
  assert (Cbq : forall q, op_code q = [] -> codes_apart keccak code_of (P ++ x_boundary eip161 ls lt ++ [q])).
  { intros q Hq. destruct Cb as (C1 & C2). split; [exact C1|]. unfold P' in C2. rewrite app_assoc, flat_map_app. cbn. rewrite Hq. cbn. now rewrite app_nil_r. }
  set (w' := x_after_boundary eip161 w).
  assert (Before : forall q v y, op_code q = [] -> xstep keccak code_of db (w, sn) q = Some (v, y) -> reply keccak db P q = v).
  { intros q v y Hq Eq. unfold reply.
    destruct (exact_answers keccak code_of db Hdb (P ++ [q]) (replies keccak db P ++ [v]) y (Cq q Hq)) as (-> & _); [|apply last_last].
    rewrite xrun_app, E. cbn [xrun]. rewrite Eq. reflexivity. }
  assert (After : forall q v y, op_code q = [] -> xstep keccak code_of db (w', []) q = Some (v, y) -> reply keccak db P' q = v).
  { intros q v y Hq Eq. unfold reply, P'. rewrite <- app_assoc.
    rewrite (exact_boundary keccak code_of db eip161 P [q] ls lt _ w sn [v] y Hdb (Cbq q Hq) E Hs Ht); [|fold w'; cbn [xrun]; rewrite Eq; reflexivity].
    rewrite app_assoc. apply last_last. }
  assert (Dead : forall a, is_true_reply (reply keccak db P (OIsDead a)) = x_dead w a).
  { intros a. rewrite (Before (OIsDead a) _ _ eq_refl eq_refl). reflexivity. }
  assert (Ex : forall a, x_exists w' a = if x_vanishes eip161 w a then false else x_exists w a).
  { intros a. unfold x_exists, w'. cbn. now destruct (x_vanishes eip161 w a). }
  assert (Ge : forall a, x_get w' a = if x_vanishes eip161 w a then account_default else x_get w a).
  { intros a. unfold x_get, w'. cbn. now destruct (x_vanishes eip161 w a). }
  split; [|split; [exact (After OLogs _ _ eq_refl eq_refl)|split; [exact (After ORefund _ _ eq_refl eq_refl)|split; [exact (After OSuicides _ _ eq_refl eq_refl)|]]]].
  - intros a k gone.
    assert (G : gone = x_vanishes eip161 w a) by (unfold gone; now rewrite Dead). clearbody gone. subst gone.
    repeat split.
    + rewrite (After (OExists a) _ _ eq_refl eq_refl), (Before (OExists a) _ _ eq_refl eq_refl), Ex. now destruct (x_vanishes eip161 w a).
    + rewrite (After (OBalance a) _ _ eq_refl eq_refl), (Before (OBalance a) _ _ eq_refl eq_refl), Ge. now destruct (x_vanishes eip161 w a).
    + rewrite (After (ONonce a) _ _ eq_refl eq_refl), (Before (ONonce a) _ _ eq_refl eq_refl), Ge. now destruct (x_vanishes eip161 w a).
    + rewrite (After (OCode a) _ _ eq_refl eq_refl), (Before (OCode a) _ _ eq_refl eq_refl), Ge. destruct (x_vanishes eip161 w a); [|reflexivity]. exact (f_equal VBytes (proj1 Hc)).
    + rewrite (After (OCodeHash a) _ _ eq_refl eq_refl), (Before (OCodeHash a) _ _ eq_refl eq_refl), Ge. now destruct (x_vanishes eip161 w a).
    + rewrite (After (OCurrent a k) _ _ eq_refl eq_refl), (Before (OCurrent a k) _ _ eq_refl eq_refl), Ex. unfold w'. cbn. now destruct (x_vanishes eip161 w a).
    + rewrite (After (OOriginal a k) _ _ eq_refl eq_refl), (After (OCurrent a k) _ _ eq_refl eq_refl). reflexivity.
    + exact (After (OAccessAccount a) _ _ eq_refl eq_refl).
    + exact (After (OAccessStorage a k) _ _ eq_refl eq_refl).
  - destruct (boundary_xworld eip161 w ls lt Hs Ht keccak code_of db sn) as (w2 & Eb & Hw).
    assert (Eb' : xrun keccak code_of db (xworld_of db, []) P' = Some (replies keccak db P ++ map (fun _ => VUnit) (x_boundary eip161 ls lt), (w2, []))) by (unfold P'; rewrite xrun_app, E, Eb; reflexivity).
    destruct (exact_answers keccak code_of db Hdb P' _ _ Cb Eb') as (_ & -> & -> & _). cbn [fst]. pose proof (e_rest _ _ Hw) as Er. cbn in Er. injection Er as -> _ -> _ _ _. split; reflexivity.
Qed.

(** ** Witnesses *)
Lemma db9_sound code_of : db_sound code_of db9.
Proof. split; [intros a k; cbn; now rewrite andb_false_r|]. intros a c. cbn. destruct (a =? 9) eqn:E; [|discriminate]. intros [= <-] H. exfalso. apply H. reflexivity. Qed.
Lemma revived_case keccak code_of : code_of kEmptyHash = [] ->
  let Q := [OCreate 9; OSetStorage 9 5 1; OSnapshot; OCreate 8; OTouch 3; ORevert 1; OSuicide 9] in
  let history := revival ++ [OSnapshot] ++ Q ++ [ORevert 0] ++ probe 9 5 in
  db_sound code_of db9 /\ length (snd (after keccak db9 revival)) = 0%nat /\ lawful keccak db9 (ibs_new, []) history = true
  /\ codes_apart keccak code_of history /\ forallb (keeps 0) Q = true /\ fst (crun keccak db9 (ibs_new, []) history) = repeat VUnit 19 ++ [VUnit; VNum 7; VNum 7].
Proof.
  intros Hc Q history. split; [exact (db9_sound code_of)|]. split; [vm_compute; reflexivity|]. split; [vm_compute; reflexivity|].
  split; [split; [exact Hc|intros c []]|]. split; vm_compute; reflexivity.
Qed.
Lemma boundary_case keccak code_of : code_of kEmptyHash = [] ->
  let P := revival ++ [OCreate 9; OSetStorage 9 5 1; OSetBalance 6 0; OAddBalance 7 2; OSuicide 7; OAddRefund 3] in
  db_sound code_of db9 /\ codes_apart keccak code_of P /\ lawful keccak db9 (ibs_new, []) P = true
  /\ [7] ≡ₚ elements (self_destructs (fst (after keccak db9 P))) /\ elements (touched (fst (after keccak db9 P))) ≡ₚ [6; 7]
  /\ (forall eip161, fst (crun keccak db9 (ibs_new, []) (P ++ x_boundary eip161 [7] [6; 7] ++ [OExists 6; OExists 7; OBalance 9; OOriginal 9 5; ORefund]))
       = repeat VUnit (if eip161 then 20 else 19) ++ [VBool (negb eip161); VBool false; VNum 1; VNum 1; VNum 0]).
Proof.
  intros Hc P. split; [exact (db9_sound code_of)|]. split; [split; [exact Hc|intros c []]|]. split; [vm_compute; reflexivity|].
  split; [|split; [|intros []; vm_compute; reflexivity]].
  - assert (E : elements (self_destructs (fst (after keccak db9 P))) = [7]) by (vm_compute; reflexivity). now rewrite E.
  - assert (E : elements (touched (fst (after keccak db9 P))) = [6; 7] \/ elements (touched (fst (after keccak db9 P))) = [7; 6]) by (first [left; vm_compute; reflexivity|right; vm_compute; reflexivity]).
    destruct E as [E|E]; rewrite E; [reflexivity|constructor].
Qed.
