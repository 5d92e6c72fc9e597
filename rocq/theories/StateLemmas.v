(** Final forms of the properties of IntraBlockState and MemoryBuffer, and concrete cases. *)
From stdpp Require Import gmap.
From Verif Require Import Base RlpModel TypesModel StateModel StateSpec StateProofs MemBufModel MemBufSpec MemBufProofs.

(** ** The reference machine does not depend on how the world's functions are presented *)
Record weq (w w' : world) : Prop := {
  e_acct : forall a, w_acct w a = w_acct w' a;
  e_cur : forall a k, w_current w a k = w_current w' a k;
  e_orig : forall a k, w_original w a k = w_original w' a k;
  e_gone : forall a, w_gone w a = w_gone w' a;
  e_born : forall a, w_born w a = w_born w' a;
  e_rest : (w_suicides w, w_logs w, w_touched w, w_refund w, w_addresses w, w_keys w) = (w_suicides w', w_logs w', w_touched w', w_refund w', w_addresses w', w_keys w')
}.

Lemma weq_refl w : weq w w.
Proof. constructor; auto. Qed.

Lemma weq_get w w' a : weq w w' -> w_get w a = w_get w' a.
Proof. intros H. unfold w_get. now rewrite (e_acct _ _ H). Qed.
Lemma weq_exists w w' a : weq w w' -> w_exists w a = w_exists w' a.
Proof. intros H. unfold w_exists. now rewrite (e_acct _ _ H). Qed.
Lemma weq_dead w w' a : weq w w' -> w_dead w a = w_dead w' a.
Proof. intros H. unfold w_dead. now rewrite (e_acct _ _ H). Qed.
Lemma weq_contract w w' a : weq w w' -> contract_in w a = contract_in w' a.
Proof. intros H. unfold contract_in. now rewrite (e_acct _ _ H). Qed.
Lemma weq_modify w w' a f : weq w w' -> weq (w_modify w a f) (w_modify w' a f).
Proof.
  intros H. pose proof (weq_get _ _ a H) as G. destruct H. constructor; cbn; auto. intros b. unfold upd. rewrite G. destruct (b =? a); auto.
Qed.
Lemma weq_sub w w' su lo to re ad ke : weq w w' -> weq (w_set_sub w su lo to re ad ke) (w_set_sub w' su lo to re ad ke).
Proof. intros H. destruct H. constructor; cbn; auto. Qed.
Lemma weq_touch w w' a : weq w w' -> weq (w_touch w a) (w_touch w' a).
Proof. intros H. unfold w_touch. pose proof (e_rest _ _ H) as E. injection E as -> -> -> -> -> ->. now apply weq_sub. Qed.
Lemma weq_destruct w w' a : weq w w' -> weq (w_destruct w a) (w_destruct w' a).
Proof.
  intros H. pose proof (weq_exists _ _ a H) as G. destruct H. constructor; cbn; auto; intros b; intros; unfold upd; destruct (b =? a); auto. now rewrite e_gone0, G.
Qed.
Lemma weq_destructs l : forall w w', weq w w' -> weq (fold_left w_destruct l w) (fold_left w_destruct l w').
Proof. induction l as [|a t IH]; intros w w' H; cbn; [exact H|]. apply IH. now apply weq_destruct. Qed.
Lemma weq_dead_destructs l : forall w w', weq w w' ->
  weq (fold_left (fun w a => if w_dead w a then w_destruct w a else w) l w) (fold_left (fun w a => if w_dead w a then w_destruct w a else w) l w').
Proof.
  induction l as [|a t IH]; intros w w' H; cbn; [exact H|]. apply IH. rewrite (weq_dead _ _ a H). destruct (w_dead w' a); [now apply weq_destruct|exact H].
Qed.

Lemma weq_nth sn sn' i s : Forall2 weq sn sn' -> nth_error sn i = Some s -> exists s', nth_error sn' i = Some s' /\ weq s s'.
Proof.
  intros H. revert i. induction H as [|x y l l' Hxy Hl IH]; intros [|i]; cbn; try discriminate; [intros [= <-]; eauto|apply IH].
Qed.
Lemma weq_firstn sn sn' k : Forall2 weq sn sn' -> Forall2 weq (firstn k sn) (firstn k sn').
Proof. intros H. revert k. induction H; intros [|k]; cbn; constructor; auto. Qed.

Lemma weq_step keccak cs w sn o v w1 sn1 w' sn' : weq w w' -> Forall2 weq sn sn' -> astep keccak cs (w, sn) o = Some (v, (w1, sn1)) ->
  exists w1' sn1', astep keccak cs (w', sn') o = Some (v, (w1', sn1')) /\ weq w1 w1' /\ Forall2 weq sn1 sn1'.
Proof.
  intros H Hs E. pose proof (e_rest _ _ H) as Er. injection Er as E1 E2 E3 E4 E5 E6.
  destruct o; cbn [astep] in *.
  - injection E as <- <- <-. exists w', sn'. now rewrite (weq_exists _ _ a H).
  - injection E as <- <- <-. exists w', sn'. now rewrite (weq_dead _ _ a H).
  - injection E as <- <- <-. exists w', sn'. now rewrite (weq_get _ _ a H).
  - injection E as <- <- <-. exists w', sn'. now rewrite (weq_get _ _ a H).
  - injection E as <- <- <-. exists w', sn'. now rewrite (weq_get _ _ a H).
  - injection E as <- <- <-. exists w', sn'. now rewrite (weq_get _ _ a H).
  - injection E as <- <- <-. exists w', sn'. now rewrite (weq_exists _ _ a H), (e_cur _ _ H).
  - injection E as <- <- <-. exists w', sn'. now rewrite (weq_exists _ _ a H), (e_orig _ _ H).
  - rewrite (weq_exists _ _ a H), (e_gone _ _ H), (weq_get _ _ a H) in E. destruct (cs a && w_gone w' a && w_exists w' a); [discriminate|]. injection E as <- <- <-.
    eexists _, _. split; [reflexivity|]. split; [|exact Hs]. destruct H. constructor; cbn; auto; intros b; intros; unfold upd; destruct (b =? a); auto.
  - injection E as <- <- <-. eexists _, _. split; [reflexivity|]. split; [|exact Hs]. now apply weq_touch, weq_modify.
  - injection E as <- <- <-. eexists _, _. split; [reflexivity|]. split; [|exact Hs]. now apply weq_touch, weq_modify.
  - injection E as <- <- <-. eexists _, _. split; [reflexivity|]. split; [|exact Hs]. now apply weq_touch, weq_modify.
  - injection E as <- <- <-. eexists _, _. split; [reflexivity|]. split; [|exact Hs]. now apply weq_modify.
  - injection E as <- <- <-. eexists _, _. split; [reflexivity|]. split; [|exact Hs]. now apply weq_modify.
  - rewrite (weq_exists _ _ a H), (weq_get _ _ a H) in E. destruct (w_exists w' a && ac_contract (w_get w' a)); [|discriminate]. injection E as <- <- <-.
    eexists _, _. split; [reflexivity|]. split; [|exact Hs]. destruct H. constructor; cbn; auto; intros b j; unfold upd; destruct (b =? a); auto; destruct (j =? k); auto.
  - injection E as <- <- <-. rewrite <- E5. eexists _, _. split; [reflexivity|]. split; [|exact Hs]. rewrite E1, E2, E3, E4, E5, E6. now apply weq_sub.
  - injection E as <- <- <-. rewrite <- E6. eexists _, _. split; [reflexivity|]. split; [|exact Hs]. rewrite E1, E2, E3, E4, E5, E6. now apply weq_sub.
  - injection E as <- <- <-. eexists _, _. split; [reflexivity|]. split; [|exact Hs]. now apply weq_touch.
  - injection E as <- <- <-. eexists _, _. split; [reflexivity|]. split; [|exact Hs]. rewrite E1, E2, E3, E4, E5, E6. now apply weq_sub.
  - injection E as <- <- <-. eexists _, _. split; [reflexivity|]. split; [|exact Hs]. rewrite E1, E2, E3, E4, E5, E6. now apply weq_sub.
  - injection E as <- <- <-. eexists _, _. split; [reflexivity|]. split; [|exact Hs]. rewrite E1, E2, E3, E4, E5, E6. now apply weq_sub.
  - injection E as <- <- <-. eexists _, _. split; [reflexivity|]. split; [|exact Hs]. rewrite E1, E2, E3, E4, E5, E6. now apply weq_sub.
  - injection E as <- <- <-. rewrite E1. now exists w', sn'.
  - injection E as <- <- <-. rewrite E2. now exists w', sn'.
  - injection E as <- <- <-. rewrite E4. now exists w', sn'.
  - injection E as <- <- <-. eexists _, _. split; [reflexivity|]. split; [exact H|]. apply Forall2_app; [exact Hs|]. constructor; [exact H|constructor].
  - destruct (nth_error sn i) as [s|] eqn:En; [|discriminate]. injection E as <- <- <-. destruct (weq_nth _ _ _ _ Hs En) as (s' & -> & Hss).
    eexists _, _. split; [reflexivity|]. split; [|now apply weq_firstn]. unfold w_restore. pose proof (e_rest _ _ Hss) as Er. injection Er as F1 F2 F3 F4 F5 F6.
    rewrite F1, F2, F3, F4, F5, F6, E3. now apply weq_sub.
  - injection E as <- <- <-. eexists _, _. split; [reflexivity|]. split; [|constructor]. destruct H. constructor; cbn; auto.
  - injection E as <- <- <-. eexists _, _. split; [reflexivity|]. split; [|constructor]. now apply weq_destruct.
  - rewrite E1 in E. destruct (bool_decide _); [|discriminate]. injection E as <- <- <-. eexists _, _. split; [reflexivity|]. split; [|constructor]. now apply weq_destructs.
  - rewrite E3 in E. destruct (bool_decide _); [|discriminate]. injection E as <- <- <-. eexists _, _. split; [reflexivity|]. split; [|constructor]. now apply weq_dead_destructs.
  - injection E as <- <- <-. eexists _, _. split; [reflexivity|]. split; [|constructor]. now apply weq_sub.
Qed.
Lemma weq_run keccak cs ops : forall w sn vs w1 sn1 w' sn', weq w w' -> Forall2 weq sn sn' -> arun keccak cs (w, sn) ops = Some (vs, (w1, sn1)) ->
  exists w1' sn1', arun keccak cs (w', sn') ops = Some (vs, (w1', sn1')) /\ weq w1 w1' /\ Forall2 weq sn1 sn1'.
Proof.
  induction ops as [|o t IH]; intros w sn vs w1 sn1 w' sn' H Hs E; cbn [arun] in *.
  - injection E as <- <- <-. now exists w', sn'.
  - destruct (astep keccak cs (w, sn) o) as [[v [w2 sn2]]|] eqn:Eo; [|discriminate]. destruct (arun keccak cs (w2, sn2) t) as [[vt [w3 sn3]]|] eqn:Et; [|discriminate]. injection E as <- <- <-.
    destruct (weq_step _ _ _ _ _ _ _ _ _ _ H Hs Eo) as (w2' & sn2' & -> & H2 & Hs2). destruct (IH _ _ _ _ _ _ _ H2 Hs2 Et) as (w3' & sn3' & -> & H3 & Hs3). now exists w3', sn3'.
Qed.

(** ** Concatenation *)
Lemma arun_app keccak cs p : forall x q, arun keccak cs x (p ++ q) =
  match arun keccak cs x p with None => None | Some (vp, y) => match arun keccak cs y q with None => None | Some (vq, z) => Some (vp ++ vq, z) end end.
Proof.
  induction p as [|o t IH]; intros x q; cbn [arun app].
  - now destruct (arun keccak cs x q) as [[vq z]|].
  - destruct (astep keccak cs x o) as [[v y]|]; [|reflexivity]. rewrite IH. destruct (arun keccak cs y t) as [[vt z]|]; [|reflexivity]. now destruct (arun keccak cs z q) as [[vq u]|].
Qed.

(** ** Keeping a snapshot *)
Lemma keeps_step keccak cs pre w sn q v w' sn' : keeps (length pre) q = true -> astep keccak cs (w, pre ++ sn) q = Some (v, (w', sn')) -> (0 < length sn)%nat ->
  exists t, sn' = pre ++ t /\ hd_error t = hd_error sn /\ (0 < length t)%nat.
Proof.
  intros Hk E Hl. assert (Same : sn' = pre ++ sn -> exists t, sn' = pre ++ t /\ hd_error t = hd_error sn /\ (0 < length t)%nat) by eauto.
  destruct q; cbn [astep keeps] in *; try discriminate; try (injection E as <- <- <-; apply Same; reflexivity).
  - destruct (_ && _); [discriminate|]. injection E as <- <- <-. now apply Same.
  - destruct (_ && _); [|discriminate]. injection E as <- <- <-. now apply Same.
  - injection E as <- <- <-. exists (sn ++ [w]). rewrite <- app_assoc. split; [reflexivity|]. destruct sn; [cbn in Hl; lia|]. split; [reflexivity|cbn; lia].
  - destruct (nth_error (pre ++ sn) i) as [s|]; [|discriminate]. injection E as <- <- <-. apply Nat.leb_le in Hk.
    exists (firstn (S i - length pre) sn). rewrite firstn_app. rewrite (firstn_all2 pre) by lia. split; [reflexivity|].
    destruct sn as [|x sn]; [cbn in Hl; lia|]. replace (S i - length pre)%nat with (S (i - length pre)) by lia. cbn. split; [reflexivity|lia].
Qed.
Lemma keeps_run keccak cs pre q : forall w sn vs w' sn', forallb (keeps (length pre)) q = true -> arun keccak cs (w, pre ++ sn) q = Some (vs, (w', sn')) -> (0 < length sn)%nat ->
  exists t, sn' = pre ++ t /\ hd_error t = hd_error sn /\ (0 < length t)%nat.
Proof.
  induction q as [|o q IH]; intros w sn vs w' sn' Hk E Hl; cbn [arun forallb] in *.
  - injection E as <- <- <-. eauto.
  - apply andb_true_iff in Hk as [Ho Hk]. destruct (astep keccak cs (w, pre ++ sn) o) as [[v [w2 sn2]]|] eqn:Eo; [|discriminate].
    destruct (keeps_step _ _ _ _ _ _ _ _ _ Ho Eo Hl) as (t & -> & Hh & Hl2). destruct (arun keccak cs (w2, pre ++ t) q) as [[vq [w3 sn3]]|] eqn:Eq; [|discriminate]. injection E as <- <- <-.
    destruct (IH _ _ _ _ _ Hk Eq Hl2) as (u & -> & Hh2 & Hl3). exists u. split; [reflexivity|]. split; [congruence|exact Hl3].
Qed.

(** ** C24 *)
Definition answers (keccak : bytes -> bytes) (db : db_reader) (ops : list op) : list obs := fst (crun keccak db (ibs_new, []) ops).

Lemma refines_answers keccak code_of db room ops vs w' sn : db_ok keccak code_of db room -> codes_ok keccak code_of ops -> N.of_nat (length ops) <= room ->
  arun keccak (db_contract db) (world_of code_of db, []) ops = Some (vs, (w', sn)) -> answers keccak db ops = vs.
Proof.
  intros Hdb (He & Hc & Hcodes) Hlen Ha. destruct (refines keccak code_of db room Hdb He Hc _ _ _ _ (world_of_starts code_of db) Hlen Hcodes Ha) as (x & n & E & _). unfold answers. now rewrite E.
Qed.

Lemma codes_incl keccak code_of ops ops' : (forall o, In o ops' -> In o ops \/ op_code o = []) -> codes_ok keccak code_of ops -> codes_ok keccak code_of ops'.
Proof.
  intros Hi (A & B & C). split; [exact A|]. split; [exact B|]. intros c Hc. apply in_flat_map in Hc as (o & Ho & Hc). destruct (Hi o Ho) as [H|H]; [|rewrite H in Hc; destruct Hc].
  apply C, in_flat_map. now exists o.
Qed.

Lemma snapshot_revert keccak code_of db room P Q T vp w1 sn1 vq wq snq vt y :
  db_ok keccak code_of db room ->
  let cs := db_contract db in
  arun keccak cs (world_of code_of db, []) P = Some (vp, (w1, sn1)) ->
  forallb (keeps (length sn1)) Q = true ->
  arun keccak cs (w1, sn1 ++ [w1]) Q = Some (vq, (wq, snq)) ->
  let again := if bool_decide (3 ∈ w_touched wq) then [OTouch 3] else [] in
  let history := P ++ [OSnapshot] ++ Q ++ [ORevert (length sn1)] ++ T in
  let history' := P ++ [OSnapshot] ++ again ++ T in
  codes_ok keccak code_of history -> N.of_nat (length history) <= room ->
  arun keccak cs (world_of code_of db, []) history = Some (vt, y) ->
  exists v, answers keccak db history = vp ++ [VUnit] ++ vq ++ [VUnit] ++ v
    /\ answers keccak db history' = vp ++ [VUnit] ++ map (fun _ => VUnit) again ++ v.
Proof.
  intros Hdb cs HP HQk HQ again history history' Hc Hlen Ha. pose proof Ha as Ha0. unfold history in Ha0. rewrite arun_app, HP, arun_app in Ha0. cbn [arun astep] in Ha0. rewrite arun_app, HQ in Ha0.
  destruct (keeps_run _ _ _ _ _ _ _ _ _ HQk HQ ltac:(cbn; lia)) as (t & -> & Hh & Hl). destruct t as [|t0 t]; [cbn in Hl; lia|]. cbn in Hh. injection Hh as ->.
  rewrite arun_app in Ha0. cbn [arun astep] in Ha0. rewrite nth_error_app2, Nat.sub_diag in Ha0 by lia. cbn [nth_error] in Ha0.
  rewrite firstn_app, (firstn_all2 sn1) in Ha0 by lia. replace (S (length sn1) - length sn1)%nat with 1%nat in Ha0 by lia. change (firstn 1 (w1 :: t)) with [w1] in Ha0.
  destruct (arun keccak cs (w_restore w1 wq, sn1 ++ [w1]) T) as [[v [w3 sn3]]|] eqn:ET; [|discriminate]. injection Ha0 as <- <-. exists v. split.
  - etransitivity; [exact (refines_answers _ _ _ _ _ _ _ _ Hdb Hc Hlen Ha)|]. reflexivity.
  - assert (E' : exists w' sn', arun keccak cs (world_of code_of db, []) history' = Some (vp ++ [VUnit] ++ map (fun _ => VUnit) again ++ v, (w', sn'))).
    { unfold history'. rewrite arun_app, HP, arun_app. cbn [arun astep]. rewrite arun_app. unfold w_restore in ET. unfold again. destruct (bool_decide (3 ∈ w_touched wq)).
      - cbn [arun astep map]. change (w_set_sub w1 (w_suicides w1) (w_logs w1) ({[3]} ∪ w_touched w1) (w_refund w1) (w_addresses w1) (w_keys w1)) with (w_touch w1 3) in ET.
        rewrite ET. now exists w3, sn3.
      - cbn [arun]. replace (w_set_sub w1 (w_suicides w1) (w_logs w1) (w_touched w1) (w_refund w1) (w_addresses w1) (w_keys w1)) with w1 in ET by (now destruct w1).
        rewrite ET. now exists w3, sn3. }
    destruct E' as (w' & sn' & E'). eapply refines_answers; [exact Hdb| | |exact E'].
    + eapply codes_incl; [|exact Hc]. intros o. unfold history, history', again. rewrite !in_app_iff. destruct (bool_decide _); cbn; intuition (subst; auto).
    + etransitivity; [|exact Hlen]. unfold history, history', again. rewrite !app_length. destruct (bool_decide _); cbn; lia.
Qed.

(** ** C26 *)
Lemma fold_destruct_world l : forall w, weq (fold_left w_destruct l w)
  (mkWorld (fun a => if bool_decide (a ∈ l) then None else w_acct w a) (fun a k => if bool_decide (a ∈ l) then 0 else w_current w a k)
     (fun a k => if bool_decide (a ∈ l) then 0 else w_original w a k) (fun a => w_gone w a || bool_decide (a ∈ l) && w_exists w a)
     (fun a => w_born w a && negb (bool_decide (a ∈ l))) (w_suicides w) (w_logs w) (w_touched w) (w_refund w) (w_addresses w) (w_keys w)).
Proof.
  induction l as [|b l IH]; intros w.
  - assert (F : forall a : N, bool_decide (a ∈ []) = false) by (intros a; apply bool_decide_false; set_solver).
    constructor; cbn; intros; rewrite ?F; try reflexivity; [now rewrite orb_false_r|now rewrite andb_true_r].
  - cbn [fold_left]. specialize (IH (w_destruct w b)). destruct IH as [I1 I2 I3 I4 I5 I6]. cbn in *.
    assert (D : forall a, bool_decide (a ∈ b :: l) = (a =? b) || bool_decide (a ∈ l)).
    { intros a. destruct (N.eqb_spec a b) as [->|Hn]; [apply bool_decide_true; set_solver|]. cbn. apply bool_decide_ext. set_solver. }
    constructor; cbn; intros; rewrite ?D.
    + rewrite I1. unfold upd. destruct (a =? b), (bool_decide (a ∈ l)); reflexivity.
    + rewrite I2. unfold upd. destruct (a =? b), (bool_decide (a ∈ l)); reflexivity.
    + rewrite I3. unfold upd. destruct (a =? b), (bool_decide (a ∈ l)); reflexivity.
    + rewrite I4. unfold upd, w_exists. cbn. unfold upd. destruct (N.eqb_spec a b) as [->|]; [|reflexivity]. destruct (w_gone w b), (w_acct w b), (bool_decide (b ∈ l)); reflexivity.
    + rewrite I5. unfold upd. destruct (a =? b); [|reflexivity]. now rewrite andb_false_r.
    + exact I6.
Qed.
Lemma fold_dead_world l : forall w, weq (fold_left (fun w a => if w_dead w a then w_destruct w a else w) l w)
  (let g a := bool_decide (a ∈ l) && w_dead w a in
   mkWorld (fun a => if g a then None else w_acct w a) (fun a k => if g a then 0 else w_current w a k)
     (fun a k => if g a then 0 else w_original w a k) (fun a => w_gone w a || g a && w_exists w a)
     (fun a => w_born w a && negb (g a)) (w_suicides w) (w_logs w) (w_touched w) (w_refund w) (w_addresses w) (w_keys w)).
Proof.
  induction l as [|b l IH]; intros w.
  - assert (F : forall a : N, bool_decide (a ∈ []) = false) by (intros a; apply bool_decide_false; set_solver).
    constructor; cbn; intros; rewrite ?F; try reflexivity; cbn; [now rewrite orb_false_r|now rewrite andb_true_r].
  - cbn [fold_left].
    assert (D : forall a, bool_decide (a ∈ b :: l) = (a =? b) || bool_decide (a ∈ l)).
    { intros a. destruct (N.eqb_spec a b) as [->|Hn]; [apply bool_decide_true; set_solver|]. cbn. apply bool_decide_ext. set_solver. }
    destruct (w_dead w b) eqn:Eb.
    + specialize (IH (w_destruct w b)). destruct IH as [I1 I2 I3 I4 I5 I6]. cbn in *.
      assert (Dd : forall a, w_dead (w_destruct w b) a = (a =? b) || w_dead w a).
      { intros a. unfold w_dead. cbn. unfold upd. destruct (a =? b); reflexivity. }
      constructor; cbn; intros; rewrite ?D.
      * rewrite I1, Dd. unfold upd. destruct (N.eqb_spec a b) as [->|]; cbn; [rewrite Eb; destruct (bool_decide (b ∈ l)); reflexivity|reflexivity].
      * rewrite I2, Dd. unfold upd. destruct (N.eqb_spec a b) as [->|]; cbn; [rewrite Eb; destruct (bool_decide (b ∈ l)); reflexivity|reflexivity].
      * rewrite I3, Dd. unfold upd. destruct (N.eqb_spec a b) as [->|]; cbn; [rewrite Eb; destruct (bool_decide (b ∈ l)); reflexivity|reflexivity].
      * rewrite I4, Dd. unfold upd, w_exists. cbn. unfold upd. destruct (N.eqb_spec a b) as [->|]; cbn; [|reflexivity]. rewrite Eb. destruct (w_gone w b), (w_acct w b), (bool_decide (b ∈ l)); reflexivity.
      * rewrite I5, Dd. unfold upd. destruct (N.eqb_spec a b) as [->|]; cbn; [|reflexivity]. rewrite Eb. now rewrite andb_false_r.
      * exact I6.
    + specialize (IH w). destruct IH as [I1 I2 I3 I4 I5 I6]. cbn in *. constructor; cbn; intros; rewrite ?D; rewrite ?I1, ?I2, ?I3, ?I4, ?I5; try exact I6;
        (destruct (N.eqb_spec a b) as [->|]; cbn; [|reflexivity]; rewrite Eb, ?andb_false_r; reflexivity).
Qed.

Lemma weq_trans a b c : weq a b -> weq b c -> weq a c.
Proof. intros [] []. constructor; intros; etransitivity; eauto. Qed.

Lemma boundary_world w ls lt : ls ≡ₚ elements (w_suicides w) -> lt ≡ₚ elements (w_touched w) -> forall keccak cs sn, exists w2,
  arun keccak cs (w, sn) (boundary ls lt) = Some ([VUnit; VUnit; VUnit; VUnit], (w2, [])) /\ weq w2 (after_boundary w).
Proof.
  intros Hs Ht keccak cs sn. unfold boundary. cbn [arun astep]. rewrite (bool_decide_true _ Hs). pose proof (fold_destruct_world ls w) as F. set (w1 := fold_left w_destruct ls w) in *.
  assert (Et : w_touched w1 = w_touched w) by (pose proof (e_rest _ _ F) as E; cbn in E; congruence). cbn [arun astep]. rewrite Et, (bool_decide_true _ Ht).
  pose proof (fold_dead_world lt w1) as G. set (w2 := fold_left _ lt w1) in *. cbn [arun astep]. eexists. split; [reflexivity|].
  assert (Ms : forall a, bool_decide (a ∈ ls) = bool_decide (a ∈ w_suicides w)) by (intros a; apply bool_decide_ext; rewrite Hs; apply elem_of_elements).
  assert (Mt : forall a, bool_decide (a ∈ lt) = bool_decide (a ∈ w_touched w)) by (intros a; apply bool_decide_ext; rewrite Ht; apply elem_of_elements).
  assert (Dd : forall a, w_dead w1 a = bool_decide (a ∈ w_suicides w) || w_dead w a).
  { intros a. unfold w_dead. rewrite (e_acct _ _ F). cbn. rewrite Ms. destruct (bool_decide _); reflexivity. }
  assert (Ex : forall a, w_exists w1 a = negb (bool_decide (a ∈ w_suicides w)) && w_exists w a).
  { intros a. unfold w_exists. rewrite (e_acct _ _ F). cbn. rewrite Ms. destruct (bool_decide _); reflexivity. }
  destruct F as [F1 F2 F3 F4 F5 F6], G as [G1 G2 G3 G4 G5 G6]. cbn in *. constructor; cbn; intros.
  - rewrite G1, F1, Dd, Ms, Mt. unfold vanishes. destruct (bool_decide (a ∈ w_suicides w)), (bool_decide (a ∈ w_touched w)), (w_dead w a); reflexivity.
  - rewrite G2, F2, Dd, Ms, Mt. unfold vanishes. destruct (bool_decide (a ∈ w_suicides w)), (bool_decide (a ∈ w_touched w)), (w_dead w a); reflexivity.
  - rewrite G2, F2, Dd, Ms, Mt. unfold vanishes. destruct (bool_decide (a ∈ w_suicides w)), (bool_decide (a ∈ w_touched w)), (w_dead w a); reflexivity.
  - rewrite G4, F4, Dd, Ex, Ms, Mt. unfold vanishes. destruct (w_gone w a), (bool_decide (a ∈ w_suicides w)), (bool_decide (a ∈ w_touched w)), (w_dead w a), (w_exists w a); reflexivity.
  - rewrite G5, F5, Dd, Ms, Mt. unfold vanishes. destruct (w_born w a), (bool_decide (a ∈ w_suicides w)), (bool_decide (a ∈ w_touched w)), (w_dead w a); reflexivity.
  - reflexivity.
Qed.

Lemma transaction_boundary keccak code_of db room P T ls lt vp w sn vt y :
  db_ok keccak code_of db room ->
  let cs := db_contract db in
  arun keccak cs (world_of code_of db, []) P = Some (vp, (w, sn)) ->
  ls ≡ₚ elements (w_suicides w) -> lt ≡ₚ elements (w_touched w) ->
  arun keccak cs (after_boundary w, []) T = Some (vt, y) ->
  let history := P ++ boundary ls lt ++ T in
  codes_ok keccak code_of history -> N.of_nat (length history) <= room ->
  answers keccak db history = vp ++ [VUnit; VUnit; VUnit; VUnit] ++ vt.
Proof.
  intros Hdb cs HP Hs Ht HT history Hc Hlen. destruct (boundary_world w ls lt Hs Ht keccak cs sn) as (w2 & Eb & Hw). destruct y as [wy sny].
  assert (Hw' : weq (after_boundary w) w2) by (destruct Hw; constructor; auto).
  destruct (weq_run _ _ _ _ _ _ _ _ _ [] Hw' ltac:(constructor) HT) as (w3 & sn3 & ET & _).
  eapply (refines_answers keccak code_of db room history _ w3 sn3 Hdb Hc Hlen). unfold history. rewrite arun_app. fold cs. rewrite HP, arun_app, Eb, ET. reflexivity.
Qed.

(** ** C27 *)
Lemma write_back keccak code_of room m past w ops vs w' sn s sn' n sord oord T vt y :
  mem_ok keccak code_of room m past w -> codes_ok keccak code_of (ops ++ T) -> N.of_nat (length (ops ++ T)) <= room ->
  arun keccak (contract_in w) (w, []) ops = Some (vs, (w', sn)) -> writable w w' ->
  snd (crun keccak (mem_reader m) (ibs_new, []) ops) = (s, sn') -> order_ok s sord oord ->
  arun keccak (contract_in w') (next_world w', []) T = Some (vt, y) ->
  answers keccak (mem_reader (write_to_db s m n sord oord)) T = vt.
Proof.
  intros Hm (He & Hce & Hc) Hlen Ha Hw Hr Ho HT. rewrite app_length in Hlen. rewrite flat_map_app in Hc. destruct (crun keccak (mem_reader m) (ibs_new, []) ops) as [vs' x] eqn:Er. cbn in Hr. subst x.
  destruct (block_step0 keccak code_of He Hce room m past w ops vs w' sn vs' s sn' n sord oord Hm ltac:(lia) ltac:(intros c Hcc; apply Hc, in_or_app; now left) Ha Hw Er Ho) as (_ & St & Dbk & _).
  set (m' := write_to_db s m n sord oord) in *.
  rewrite (arun_ext keccak _ (db_contract (mem_reader m')) T) in HT by (intros a; exact (contract_db code_of m' (next_world w') a St)).
  destruct (refines keccak code_of (mem_reader m') _ Dbk He Hce (next_world w') T vt y St ltac:(lia) ltac:(intros c Hcc; apply Hc, in_or_app; now right) HT) as (x' & n' & E & _). unfold answers. now rewrite E.
Qed.

Lemma blocks_refine keccak code_of room m past w blocks vss past2 w2 vss' m2 :
  mem_ok keccak code_of room m past w -> codes_ok keccak code_of (concat (map snd blocks)) -> total_ops blocks <= room ->
  replay keccak past w blocks vss past2 w2 -> mreplay keccak m blocks vss' m2 ->
  vss' = vss /\ mem_ok keccak code_of (room - total_ops blocks) m2 past2 w2.
Proof.
  intros Hm (He & Hce & Hc) Hlen Hr Hmr. exact (replay_refines keccak code_of He Hce blocks room m past w vss past2 w2 Hm Hlen Hc Hr vss' m2 Hmr).
Qed.

Lemma empty_ok keccak code_of room past : room < 2 ^ 64 -> mem_ok keccak code_of room mem_empty past world_empty.
Proof.
  intros Hr. constructor.
  - unfold starts. cbn. repeat split; intros; rewrite ?lookup_empty; reflexivity.
  - split; [|split].
    + intros a k. cbn. now rewrite lookup_empty.
    + intros a c. cbn. rewrite lookup_empty. discriminate.
    + intros a. cbn [previous_incarnation mem_reader mem_empty m_prev]. rewrite lookup_empty. cbn [default from_option id]. exact Hr.
  - intros a i k v. cbn. rewrite lookup_empty. discriminate.
  - intros key v. cbn. rewrite lookup_empty. discriminate.
Qed.

(** ** C28 *)
Definition probe (a k : N) : list op := [OCreate a; OCurrent a k; OOriginal a k].
Lemma probe_run keccak cs w sn a k vs y : arun keccak cs (w, sn) (probe a k) = Some (vs, y) -> vs = [VUnit; VNum 0; VNum 0].
Proof.
  unfold probe. cbn [arun astep]. destruct (_ && _); [discriminate|]. intros [= <- _]. unfold w_exists. cbn. unfold upd. rewrite N.eqb_refl. reflexivity.
Qed.
Lemma fresh_in_block keccak code_of db room P a k vs y :
  db_ok keccak code_of db room -> codes_ok keccak code_of (P ++ probe a k) -> N.of_nat (length (P ++ probe a k)) <= room ->
  arun keccak (db_contract db) (world_of code_of db, []) (P ++ probe a k) = Some (vs, y) ->
  exists vp, answers keccak db (P ++ probe a k) = vp ++ [VUnit; VNum 0; VNum 0].
Proof.
  intros Hdb Hc Hlen Ha. destruct y as [w' sn']. rewrite (refines_answers _ _ _ _ _ _ _ _ Hdb Hc Hlen Ha).
  rewrite arun_app in Ha. destruct (arun keccak (db_contract db) (world_of code_of db, []) P) as [[vp [w sn]]|]; [|discriminate].
  destruct (arun keccak (db_contract db) (w, sn) (probe a k)) as [[vq z]|] eqn:Eq; [|discriminate]. injection Ha as <- _. exists vp. f_equal. exact (probe_run _ _ _ _ _ _ _ _ Eq).
Qed.
Lemma replay_app_inv keccak bs : forall past w b vss past2 w2, replay keccak past w (bs ++ [b]) vss past2 w2 ->
  exists vss1 vs past1 w1 w' sn, vss = vss1 ++ [vs] /\ replay keccak past w bs vss1 past1 w1 /\ arun keccak (contract_in w1) (w1, []) (snd b) = Some (vs, (w', sn)).
Proof.
  induction bs as [|[n ops] bs IH]; intros past w [nb ob] vss past2 w2 H; cbn [app] in H; inversion H as [|p0 w0 n0 ops0 rest0 vs vss0 w' sn p2 w2' Ha Hb Hrest]; subst.
  - inversion Hrest; subst. exists [], vs, past, w, w', sn. split; [reflexivity|]. split; [constructor|exact Ha].
  - destruct (IH _ _ _ _ _ _ Hrest) as (vss1 & vs1 & past1 & w1 & w'1 & sn1 & -> & Hr & Hl). exists (vs :: vss1), vs1, past1, w1, w'1, sn1. split; [reflexivity|]. split; [|exact Hl].
    econstructor; eassumption.
Qed.
Lemma fresh_across_blocks keccak code_of room m past w blocks n P a k Q vss past2 w2 vss' m2 :
  let history := blocks ++ [(n, P ++ probe a k ++ Q)] in
  mem_ok keccak code_of room m past w -> codes_ok keccak code_of (concat (map snd history)) -> total_ops history <= room ->
  replay keccak past w history vss past2 w2 -> mreplay keccak m history vss' m2 ->
  exists before vp vq, vss' = before ++ [vp ++ [VUnit; VNum 0; VNum 0] ++ vq] /\ length vp = length P.
Proof.
  intros history Hm Hc Hlen Hr Hmr. destruct (blocks_refine keccak code_of room m past w history vss past2 w2 vss' m2 Hm Hc Hlen Hr Hmr) as (-> & _).
  apply replay_app_inv in Hr as (vss1 & vs & past1 & w1 & w' & sn & -> & _ & Ha). cbn [snd] in Ha. rewrite arun_app in Ha.
  destruct (arun keccak (contract_in w1) (w1, []) P) as [[vp [wp snp]]|] eqn:EP; [|discriminate]. rewrite arun_app in Ha.
  destruct (arun keccak (contract_in w1) (wp, snp) (probe a k)) as [[vq [wq snq]]|] eqn:Eq; [|discriminate].
  destruct (arun keccak (contract_in w1) (wq, snq) Q) as [[v3 z]|]; [|discriminate]. injection Ha as <- _. apply probe_run in Eq. subst vq. exists vss1, vp, v3. split; [reflexivity|].
  clear -EP. revert EP. generalize (w1, @nil world). revert vp wp snp. induction P as [|o P IH]; intros vp wp snp x E; cbn [arun] in E.
  - injection E as <- _. reflexivity.
  - destruct (astep keccak (contract_in w1) x o) as [[v y]|]; [|discriminate]. destruct (arun keccak (contract_in w1) y P) as [[vt z]|] eqn:Et; [|discriminate]. injection E as <- ->. cbn. f_equal. eapply IH, Et.
Qed.

(** ** Counterexamples *)
Definition account0 (inc : N) : account := mkAccount 1 0 kEmptyHash inc.
(** a contract 9 of incarnation 1 with value 7 in slot 5 *)
Definition db9 : db_reader :=
  mkDb (fun a => if a =? 9 then Some (account0 1) else None) (fun _ => []) (fun a i k => if (a =? 9) && (i =? 1) && (k =? 5) then 7 else 0) (fun _ => 0).
Lemma db9_ok keccak code_of : keccak [] = kEmptyHash -> code_of kEmptyHash = [] -> db_ok keccak code_of db9 1000.
Proof.
  intros He Hc. split; [|split].
  - intros a k. cbn. now rewrite andb_false_r.
  - intros a c. cbn. destruct (a =? 9); [|discriminate]. intros [= <-]. cbn [account0 a_code_hash a_incarnation]. rewrite Hc. split; [exact He|]. split; [congruence|lia].
  - intros a. cbn. lia.
Qed.
(** One transaction destroys 9, the next pays it 1 wei, the third creates a contract there. *)
Definition revival : list op := [OSuicide 9] ++ boundary [9] [] ++ [OAddBalance 9 1] ++ boundary [] [9].
Lemma revived_storage keccak : answers keccak db9 (revival ++ probe 9 5) = repeat VUnit 10 ++ [VUnit; VNum 7; VNum 7].
Proof. vm_compute. reflexivity. Qed.
Lemma revived_reference keccak code_of : keccak [] = kEmptyHash -> code_of kEmptyHash = [] -> exists y,
  arun keccak (fun _ => false) (world_of code_of db9, []) (revival ++ probe 9 5) = Some (repeat VUnit 10 ++ [VUnit; VNum 0; VNum 0], y).
Proof. intros He Hc. eexists. unfold revival, boundary, probe. cbn [app]. vm_compute. reflexivity. Qed.

(** Running blocks with one particular visiting order. *)
Definition some_order (s : ibs) : list (N * list N) * list N :=
  (map (fun a => (a, elements (dom (st_committed (storage_of s a))))) (elements (dom (storages s))), elements (dom (objects s))).
Lemma some_order_ok s : order_ok s (fst (some_order s)) (snd (some_order s)).
Proof.
  unfold some_order. split; [|split]; cbn [fst snd].
  - rewrite map_map. cbn. now rewrite map_id.
  - intros a ks H. apply elem_of_list_In, in_map_iff in H as (b & [= <- <-] & _). reflexivity.
  - reflexivity.
Qed.
Fixpoint mrun (keccak : bytes -> bytes) (m : membuf) (blocks : list (N * list op)) : list (list obs) * membuf :=
  match blocks with
  | [] => ([], m)
  | (n, ops) :: rest =>
    let '(vs, (s, _)) := crun keccak (mem_reader m) (ibs_new, []) ops in
    let '(vss, m2) := mrun keccak (write_to_db s m n (fst (some_order s)) (snd (some_order s))) rest in
    (vs :: vss, m2)
  end.
Lemma mrun_mreplay keccak blocks : forall m, mreplay keccak m blocks (fst (mrun keccak m blocks)) (snd (mrun keccak m blocks)).
Proof.
  induction blocks as [|[n ops] rest IH]; intros m; cbn [mrun]; [constructor|].
  destruct (crun keccak (mem_reader m) (ibs_new, []) ops) as [vs [s sn]] eqn:E. specialize (IH (write_to_db s m n (fst (some_order s)) (snd (some_order s)))).
  destruct (mrun keccak (write_to_db s m n (fst (some_order s)) (snd (some_order s))) rest) as [vss m2]. cbn [fst snd] in *.
  econstructor; [exact E|apply some_order_ok|exact IH].
Qed.
Lemma mrun_exists keccak m blocks vss : fst (mrun keccak m blocks) = vss -> exists m2, mreplay keccak m blocks vss m2.
Proof. intros <-. eexists. apply mrun_mreplay. Qed.

(** block 1 creates the contract 9 and stores 7 in slot 5 *)
Definition b_create : list op := [OCreate 9; OSetNonce 9 1; OSetStorage 9 5 7] ++ boundary [] [].
(** destroyed and credited in one block; re-created in the next; read in the one after it *)
Definition forgotten : list (N * list op) :=
  [(1, b_create); (2, revival); (3, probe 9 5 ++ [OSetNonce 9 1] ++ boundary [] []); (4, [OCurrent 9 5])].
Lemma forgotten_run keccak : exists m, mreplay keccak mem_empty forgotten
  [repeat VUnit 7; repeat VUnit 10; [VUnit; VNum 0; VNum 0] ++ repeat VUnit 5; [VNum 7]] m.
Proof. apply mrun_exists. vm_compute. reflexivity. Qed.
(** destroyed; credited; emptied and cleared; re-created; read *)
Definition reset : list (N * list op) :=
  [(1, b_create); (2, [OSuicide 9] ++ boundary [9] []); (3, [OAddBalance 9 1] ++ boundary [] [9]); (4, [OSubBalance 9 1] ++ boundary [] [9]);
   (5, probe 9 5 ++ [OSetNonce 9 1] ++ boundary [] []); (6, [OCurrent 9 5])].
Lemma reset_run keccak : exists m, mreplay keccak mem_empty reset
  [repeat VUnit 7; repeat VUnit 5; repeat VUnit 5; repeat VUnit 5; [VUnit; VNum 0; VNum 0] ++ repeat VUnit 5; [VNum 7]] m.
Proof. apply mrun_exists. vm_compute. reflexivity. Qed.

(** A stand-in hash for the cases that need a concrete one. *)
Definition keccak0 (b : bytes) : bytes := match b with [] => kEmptyHash | _ => b end.
Definition code_of0 (h : bytes) : bytes := if bytes_eqb h kEmptyHash then [] else h.
(** the code of a contract created at a revived address is lost *)
Definition lost_code : list (N * list op) :=
  [(1, b_create); (2, revival ++ [OCreate 9; OSetCode 9 [1]; OCode 9] ++ boundary [] []); (3, [OCode 9])].
Lemma lost_code_run : exists m, mreplay keccak0 mem_empty lost_code
  [repeat VUnit 7; repeat VUnit 12 ++ [VBytes [1]] ++ repeat VUnit 4; [VBytes []]] m.
Proof. apply mrun_exists. vm_compute. reflexivity. Qed.

(** ** Concrete legal histories *)
Ltac run_ref :=
  repeat (progress cbn [arun astep app boundary b_create probe fst snd] || (rewrite bool_decide_true by (vm_compute; reflexivity)) || (rewrite andb_false_r) || (rewrite andb_true_r)).

Lemma weq_sym w w' : weq w w' -> weq w' w.
Proof. intros []. constructor; intros; symmetry; auto. Qed.
Lemma weq_next w w' : weq w w' -> weq (next_world w) (next_world w').
Proof. intros []. constructor; cbn; auto. Qed.
Lemma weq_block_ok past past' w0 w0' w w' : (forall a, past a = past' a) -> weq w0 w0' -> weq w w' -> block_ok past w0 w -> block_ok past' w0' w'.
Proof.
  intros Hp H0 H ((A & B) & C & D). split; [split|split].
  - intros a k. rewrite <- (e_orig _ _ H), <- (e_cur _ _ H). apply A.
  - intros a c0 c. rewrite <- (e_acct _ _ H0), <- (e_acct _ _ H), <- (e_born _ _ H). apply B.
  - intros a. rewrite <- (weq_contract _ _ a H0), <- (weq_contract _ _ a H), <- (weq_exists _ _ a H). apply C.
  - intros a. rewrite <- Hp, <- (weq_exists _ _ a H0), <- (weq_contract _ _ a H0), <- (weq_exists _ _ a H). apply D.
Qed.
Lemma replay_weq keccak blocks : forall past past' w w' vss p2 w2, (forall a, past a = past' a) -> weq w w' -> replay keccak past w blocks vss p2 w2 ->
  exists p2' w2', replay keccak past' w' blocks vss p2' w2'.
Proof.
  induction blocks as [|[n ops] rest IH]; intros past past' w w' vss p2 w2 Hp H Hr; inversion Hr as [|p0 w0 n0 ops0 rest0 vs vss0 w1 sn p2' w2' Ha Hb Hrest]; subst; [eexists _, _; constructor|].
  destruct (weq_run _ _ _ _ _ _ _ _ _ [] H ltac:(constructor) Ha) as (w1' & sn' & E & H1 & _).
  destruct (IH (next_past past w w1) (next_past past' w' w1') _ (next_world w1') _ _ _ ltac:(intros a; unfold next_past; now rewrite Hp, (weq_contract _ _ a H), (weq_exists _ _ a H1)) (weq_next _ _ H1) Hrest) as (p3 & w3 & Hr3).
  exists p3, w3. eapply replay_cons; [|exact (weq_block_ok _ _ _ _ _ _ Hp H H1 Hb)|exact Hr3]. rewrite <- E. apply arun_ext. intros a. symmetry. exact (weq_contract _ _ a H).
Qed.
Lemma replay_step keccak past w n ops rest vs vss w1 w' past' next sn p2 w2 :
  arun keccak (contract_in w) (w, []) ops = Some (vs, (w1, sn)) -> weq w1 w' -> block_ok past w w' ->
  (forall a, next_past past w w' a = past' a) -> weq (next_world w') next ->
  replay keccak past' next rest vss p2 w2 -> exists p2' w2', replay keccak past w ((n, ops) :: rest) (vs :: vss) p2' w2'.
Proof.
  intros Ha Hw Hb Hp Hn Hr.
  destruct (replay_weq keccak rest past' (next_past past w w1) next (next_world w1) _ _ _
    ltac:(intros a; rewrite <- Hp; unfold next_past; now rewrite (weq_exists _ _ a Hw)) (weq_trans _ _ _ (weq_sym _ _ Hn) (weq_next _ _ (weq_sym _ _ Hw))) Hr) as (p3 & w3 & H3).
  exists p3, w3. eapply replay_cons; [exact Ha|eapply weq_block_ok; [reflexivity|apply weq_refl|exact (weq_sym _ _ Hw)|exact Hb]|exact H3].
Qed.

(** the world with at most the account 9, with slot 5 *)
Definition world9 (c : option acct) (v : N) (gone born : bool) : world :=
  mkWorld (fun a => if a =? 9 then c else None) (fun a k => if (a =? 9) && (k =? 5) then v else 0) (fun a k => if (a =? 9) && (k =? 5) then v else 0)
    (fun a => (a =? 9) && gone) (fun a => (a =? 9) && born) ∅ [] ∅ 0 ∅ ∅.
Definition contract9 : acct := mkAcct 1 0 [] true.
Definition past9 (b : bool) (a : N) : bool := (a =? 9) && b.

Ltac split9 := cbn; intros; unfold upd in *; repeat match goal with
  | H : context [?a =? ?b] |- _ => is_var a; destruct (N.eqb_spec a b); cbn in *; try subst
  | |- context [?a =? ?b] => is_var a; destruct (N.eqb_spec a b); cbn in *; try subst end; try congruence; try reflexivity; try (right; congruence); auto.

Definition normal : list (N * list op) :=
  [(1, b_create); (2, [OSuicide 9] ++ boundary [9] []); (3, probe 9 5 ++ [OSetNonce 9 1; OSetStorage 9 5 8] ++ boundary [] []); (4, [OCurrent 9 5])].
Definition normal_answers : list (list obs) := [repeat VUnit 7; repeat VUnit 5; [VUnit; VNum 0; VNum 0] ++ repeat VUnit 6; [VNum 8]].
Lemma normal_replay keccak : exists past w, replay keccak (past9 false) (world9 None 0 false false) normal normal_answers past w.
Proof.
  unfold normal, normal_answers.
  assert (R4 : exists p w, replay keccak (past9 true) (world9 (Some contract9) 8 false false) [(4, [OCurrent 9 5])] [[VNum 8]] p w).
  { eapply replay_step with (past' := past9 true); [reflexivity|apply weq_refl| |intros a|apply weq_refl|apply replay_nil].
    - repeat split; split9.
    - unfold next_past, past9, contract_in, w_exists. split9. }
  destruct R4 as (p4 & w4 & R4).
  assert (R3 : exists p w, replay keccak (past9 true) (world9 None 0 false false) [(3, probe 9 5 ++ [OSetNonce 9 1; OSetStorage 9 5 8] ++ boundary [] []); (4, [OCurrent 9 5])]
    [[VUnit; VNum 0; VNum 0] ++ repeat VUnit 6; [VNum 8]] p w).
  { eapply replay_step with (past' := past9 true) (w' := world9 (Some contract9) 8 false true) (next := world9 (Some contract9) 8 false false); [run_ref; reflexivity| | |intros a| |exact R4].
    - constructor; try reflexivity; split9.
    - repeat split; unfold contract_in, w_exists, past9; split9.
    - unfold next_past, past9, contract_in, w_exists. split9.
    - constructor; try reflexivity; split9. }
  destruct R3 as (p3 & w3 & R3).
  assert (R2 : exists p w, replay keccak (past9 false) (world9 (Some contract9) 7 false false) [(2, [OSuicide 9] ++ boundary [9] []); (3, probe 9 5 ++ [OSetNonce 9 1; OSetStorage 9 5 8] ++ boundary [] []); (4, [OCurrent 9 5])]
    [repeat VUnit 5; [VUnit; VNum 0; VNum 0] ++ repeat VUnit 6; [VNum 8]] p w).
  { eapply replay_step with (past' := past9 true) (w' := world9 None 0 true false) (next := world9 None 0 false false); [run_ref; reflexivity| | |intros a| |exact R3].
    - constructor; try reflexivity; split9.
    - repeat split; unfold contract_in, w_exists, past9; split9.
    - unfold next_past, past9, contract_in, w_exists. split9.
    - constructor; try reflexivity; split9. }
  destruct R2 as (p2 & w2 & R2).
  eapply replay_step with (past' := past9 false) (w' := world9 (Some contract9) 7 false true) (next := world9 (Some contract9) 7 false false); [run_ref; reflexivity| | |intros a| |exact R2].
  - constructor; try reflexivity; split9.
  - repeat split; unfold contract_in, w_exists, past9; split9.
  - unfold next_past, past9, contract_in, w_exists. split9.
  - constructor; try reflexivity; split9.
Qed.

Lemma empty9_ok keccak code_of room : room < 2 ^ 64 -> mem_ok keccak code_of room mem_empty (past9 false) (world9 None 0 false false).
Proof.
  intros Hr. destruct (empty_ok keccak code_of room (past9 false) Hr) as [Hs Hd Hi Hn]. constructor; [|exact Hd| |exact Hn].
  - unfold starts. cbn. repeat split; intros; rewrite ?lookup_empty, ?andb_false_r; try reflexivity; destruct (a =? 9); try reflexivity; destruct (_ && _); reflexivity.
  - intros a i k v. cbn. rewrite lookup_empty. discriminate.
Qed.
Lemma normal_codes keccak code_of : keccak [] = kEmptyHash -> code_of kEmptyHash = [] -> codes_ok keccak code_of (concat (map snd normal)).
Proof. intros He Hc. split; [exact He|]. split; [exact Hc|]. intros c H. vm_compute in H. destruct H. Qed.
Lemma normal_run keccak : exists m, mreplay keccak mem_empty normal normal_answers m.
Proof. apply mrun_exists. vm_compute. reflexivity. Qed.
Lemma munwind_exists l : forall m, exists m2, munwind m l m2.
Proof.
  induction l as [|n l IH]; intros m; [eexists; constructor|]. destruct (IH (unwind_state_changes m n (elements (dom (default ∅ (m_acc_changes m !! n)))) (elements (dom (default ∅ (m_st_changes m !! n)))))) as (m2 & H2). eexists. eapply munwind_cons; [|exact H2]. split; reflexivity.
Qed.

(** A snapshot around the creation, funding and destruction marks of a contract and a nested revert. *)
Definition before_snapshot : list op := [OAddBalance 7 100; OAccessAccount 7].
Definition undone : list op := [OCreate 8; OSetStorage 8 1 2; OSnapshot; OSubBalance 7 40; OTouch 3; ORevert 1; OSuicide 9; OSetStorage 9 5 1; OAddRefund 4].
Definition observing : list op := [OExists 8; OBalance 7; OCurrent 9 5; OSuicides; ORefund; OAccessAccount 7].
Lemma snapshot_case keccak code_of : keccak [] = kEmptyHash -> code_of kEmptyHash = [] ->
  exists vp w1 sn1 vq wq snq vt y, arun keccak (db_contract db9) (world_of code_of db9, []) before_snapshot = Some (vp, (w1, sn1))
    /\ forallb (keeps (length sn1)) undone = true /\ arun keccak (db_contract db9) (w1, sn1 ++ [w1]) undone = Some (vq, (wq, snq)) /\ bool_decide (3 ∈ w_touched wq) = true
    /\ arun keccak (db_contract db9) (world_of code_of db9, []) (before_snapshot ++ [OSnapshot] ++ undone ++ [ORevert (length sn1)] ++ observing) = Some (vt, y)
    /\ vt = repeat VUnit 1 ++ [VBool true] ++ repeat VUnit 11 ++ [VBool false; VNum 100; VNum 7; VNum 0; VNum 0; VBool false].
Proof.
  intros He Hc. set (cs := db_contract db9). set (w0 := world_of code_of db9).
  assert (C : match arun keccak cs (w0, []) before_snapshot with
    | Some (_, (w1, sn1)) => (length sn1 =? 0)%nat && forallb (keeps (length sn1)) undone &&
      match arun keccak cs (w1, sn1 ++ [w1]) undone with Some (_, (wq, _)) => bool_decide (3 ∈ w_touched wq) | None => false end
    | None => false end = true) by (vm_compute; reflexivity).
  assert (D : option_map fst (arun keccak cs (w0, []) (before_snapshot ++ [OSnapshot] ++ undone ++ [ORevert 0] ++ observing)) =
    Some (repeat VUnit 1 ++ [VBool true] ++ repeat VUnit 11 ++ [VBool false; VNum 100; VNum 7; VNum 0; VNum 0; VBool false])) by (vm_compute; reflexivity).
  clearbody cs w0. remember (before_snapshot ++ [OSnapshot] ++ undone ++ [ORevert 0] ++ observing) as h eqn:Hh.
  destruct (arun keccak cs (w0, []) before_snapshot) as [[vp [w1 sn1]]|] eqn:E1; [|discriminate C]. apply andb_true_iff in C as (C & C3). apply andb_true_iff in C as (C1 & C2).
  destruct (arun keccak cs (w1, sn1 ++ [w1]) undone) as [[vq [wq snq]]|] eqn:E2; [|discriminate C3].
  destruct (arun keccak cs (w0, []) h) as [[vt y]|] eqn:E3; [|discriminate D]. injection D as D.
  apply Nat.eqb_eq in C1. exists vp, w1, sn1, vq, wq, snq, vt, y. split; [reflexivity|]. split; [exact C2|]. split; [exact E2|]. split; [exact C3|]. rewrite C1, <- Hh. split; [exact E3|exact D].
Qed.

Lemma unwound keccak code_of room m past w blocks vss past2 w2 vss' m2 m3 :
  mem_ok keccak code_of room m past w -> codes_ok keccak code_of (concat (map snd blocks)) -> total_ops blocks <= room ->
  replay keccak past w blocks vss past2 w2 -> mreplay keccak m blocks vss' m2 ->
  NoDup (map fst blocks) -> munwind m2 (rev (map fst blocks)) m3 ->
  m_accounts m3 = m_accounts m /\ m_storage m3 = m_storage m
  /\ (forall a c, m_accounts m !! a = Some c -> a_code_hash c <> kEmptyHash ->
        read_code (mem_reader m3) (a_code_hash c) = read_code (mem_reader m) (a_code_hash c))
  /\ mem_ok keccak code_of (room - total_ops blocks) m3 past w.
Proof.
  intros Hm (He & Hce & Hc) Hlen Hr Hmr Hnd Hu. exact (unwind_restores keccak code_of He Hce blocks room m past w vss past2 w2 vss' m2 m3 Hm Hlen Hc Hr Hmr Hnd Hu).
Qed.
