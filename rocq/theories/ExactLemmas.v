(** Final forms of the properties of IntraBlockState that hold on every history. *)
From stdpp Require Import gmap.
From Verif Require Import Base RlpModel TypesModel StateModel StateSpec ExactSpec ExactProofs.

Section Final.
  Variables (keccak code_of : bytes -> bytes) (db : db_reader).

  (** ** Concatenation *)
  Lemma xrun_app p : forall x q, xrun keccak code_of db x (p ++ q) =
    match xrun keccak code_of db x p with
    | None => None
    | Some (vp, y) => match xrun keccak code_of db y q with None => None | Some (vq, z) => Some (vp ++ vq, z) end
    end.
  Proof.
    induction p as [|o t IH]; intros x q; cbn [xrun app].
    - now destruct (xrun keccak code_of db x q) as [[vq z]|].
    - destruct (xstep keccak code_of db x o) as [[v y]|]; [|reflexivity]. rewrite IH. destruct (xrun keccak code_of db y t) as [[vt z]|]; [|reflexivity].
      now destruct (xrun keccak code_of db z q) as [[vq u]|].
  Qed.
  Lemma xrun_length ops : forall x vs y, xrun keccak code_of db x ops = Some (vs, y) -> length vs = length ops.
  Proof.
    induction ops as [|o t IH]; intros x vs y; cbn [xrun]; [now intros [= <- <-]|]. destruct (xstep keccak code_of db x o) as [[v z]|]; [|discriminate].
    destruct (xrun keccak code_of db z t) as [[vt u]|] eqn:E; [|discriminate]. intros [= <- <-]. cbn. f_equal. eapply IH; exact E.
  Qed.

  (** ** Keeping a snapshot *)
  Lemma xkeeps_step pre w sn q v w' sn' : keeps (length pre) q = true -> xstep keccak code_of db (w, pre ++ sn) q = Some (v, (w', sn')) -> (0 < length sn)%nat ->
    exists t, sn' = pre ++ t /\ hd_error t = hd_error sn /\ (0 < length t)%nat.
  Proof.
    intros Hk E Hl. assert (Same : sn' = pre ++ sn -> exists t, sn' = pre ++ t /\ hd_error t = hd_error sn /\ (0 < length t)%nat) by eauto.
    destruct q; cbn [xstep keeps] in *; try discriminate; try (injection E as <- <- <-; apply Same; reflexivity).
    - destruct (x_exists w a); [|discriminate]. injection E as <- <- <-. now apply Same.
    - injection E as <- <- <-. exists (sn ++ [w]). rewrite <- app_assoc. split; [reflexivity|]. destruct sn; [cbn in Hl; lia|]. split; [reflexivity|cbn; lia].
    - destruct (nth_error (pre ++ sn) i) as [s|]; [|discriminate]. injection E as <- <- <-. apply Nat.leb_le in Hk.
      exists (firstn (S i - length pre) sn). rewrite firstn_app. rewrite (firstn_all2 pre) by lia. split; [reflexivity|].
      destruct sn as [|x sn]; [cbn in Hl; lia|]. replace (S i - length pre)%nat with (S (i - length pre)) by lia. cbn. split; [reflexivity|lia].
  Qed.
  Lemma xkeeps_run pre q : forall w sn vs w' sn', forallb (keeps (length pre)) q = true -> xrun keccak code_of db (w, pre ++ sn) q = Some (vs, (w', sn')) -> (0 < length sn)%nat ->
    exists t, sn' = pre ++ t /\ hd_error t = hd_error sn /\ (0 < length t)%nat.
  Proof.
    induction q as [|o q IH]; intros w sn vs w' sn' Hk E Hl; cbn [xrun forallb] in *.
    - injection E as <- <- <-. eauto.
    - apply andb_true_iff in Hk as [Ho Hk]. destruct (xstep keccak code_of db (w, pre ++ sn) o) as [[v [w2 sn2]]|] eqn:Eo; [|discriminate].
      destruct (xkeeps_step _ _ _ _ _ _ _ Ho Eo Hl) as (t & -> & Hh & Hl2). destruct (xrun keccak code_of db (w2, pre ++ t) q) as [[vq [w3 sn3]]|] eqn:Eq; [|discriminate]. injection E as <- <- <-.
      destruct (IH _ _ _ _ _ Hk Eq Hl2) as (u & -> & Hh2 & Hl3). exists u. split; [reflexivity|]. split; [congruence|exact Hl3].
  Qed.

  (** ** The implementation after a history *)
  Definition after (ops : list op) : ibs * list snapshot := snd (crun keccak db (ibs_new, []) ops).
  Definition replies (ops : list op) : list obs := fst (crun keccak db (ibs_new, []) ops).

  Hypothesis Hdb : db_sound code_of db.

  Lemma codes_part a b : codes_apart keccak code_of (a ++ b) -> codes_apart keccak code_of a /\ codes_apart keccak code_of b.
  Proof. intros (H & K). rewrite flat_map_app in K. split; (split; [exact H|]); intros c Hc; apply K, in_or_app; tauto. Qed.

  Lemma exact_answers ops vs y : codes_apart keccak code_of ops -> xrun keccak code_of db (xworld_of db, []) ops = Some (vs, y) ->
    replies ops = vs /\ touched (fst (after ops)) = x_touched (fst y) /\ self_destructs (fst (after ops)) = x_suicides (fst y) /\ length (snd (after ops)) = length (snd y).
  Proof.
    intros (Hc & Hk) E. destruct (exact_refines keccak code_of db Hdb Hc ops vs y Hk E) as (x & Ex & Hr). unfold replies, after. rewrite Ex. cbn [fst snd]. split; [reflexivity|].
    pose proof (rel_R _ _ _ _ Hr) as HR. split; [exact (R_touched _ _ _ HR)|]. split; [exact (r_sui _ _ _ (r_0 _ _ _ HR))|].
    destruct (rel_st _ _ _ _ Hr) as (bl & base & g & _ & _ & H3 & H4 & _). now rewrite H3, H4, !map_length.
  Qed.

  Lemma lawful_answers ops : codes_apart keccak code_of ops -> lawful keccak db (ibs_new, []) ops = true ->
    exists y, xrun keccak code_of db (xworld_of db, []) ops = Some (replies ops, y).
  Proof.
    intros Hc Hl. destruct (exact_runs keccak code_of db Hdb (proj1 Hc) ops (proj2 Hc) Hl) as (vs & y & E). destruct (exact_answers ops vs y Hc E) as (-> & _). now exists y.
  Qed.

  (** ** C24 *)
  Lemma revert_undoes P Q T : let i := length (snd (after P)) in
    let history := P ++ [OSnapshot] ++ Q ++ [ORevert i] ++ T in
    lawful keccak db (ibs_new, []) history = true -> codes_apart keccak code_of history -> forallb (keeps i) Q = true ->
    let again := if bool_decide (3 ∈ touched (fst (after (P ++ [OSnapshot] ++ Q)))) then [OTouch 3] else [] in
    exists v, length v = length T
      /\ replies history = replies (P ++ [OSnapshot] ++ Q ++ [ORevert i]) ++ v
      /\ replies (P ++ [OSnapshot] ++ again ++ T) = replies (P ++ [OSnapshot] ++ again) ++ v.
  Proof.
    intros i history Hl Hc Hk again. destruct (lawful_answers history Hc Hl) as (y & E).
    assert (CP : codes_apart keccak code_of P) by (now apply codes_part in Hc).
    assert (CPQ : codes_apart keccak code_of (P ++ [OSnapshot] ++ Q)).
    { unfold history in Hc. rewrite !app_assoc in Hc. apply codes_part in Hc as (Hc & _). apply codes_part in Hc as (Hc & _). now rewrite app_assoc. }
    assert (CPQR : codes_apart keccak code_of (P ++ [OSnapshot] ++ Q ++ [ORevert i])).
    { unfold history in Hc. rewrite !app_assoc in Hc. apply codes_part in Hc as (Hc & _). now rewrite !app_assoc. }
    pose proof E as E0. unfold history in E0. rewrite xrun_app in E0.
    destruct (xrun keccak code_of db (xworld_of db, []) P) as [[vp [w1 sn1]]|] eqn:EP; [|discriminate].
    destruct (exact_answers P vp _ CP EP) as (_ & _ & _ & Hi). cbn [snd] in Hi. fold i in Hi.
    rewrite xrun_app in E0. cbn [xrun xstep] in E0. rewrite xrun_app in E0.
    destruct (xrun keccak code_of db (w1, sn1 ++ [w1]) Q) as [[vq [wq snq]]|] eqn:EQ; [|discriminate].
    assert (EPQ : xrun keccak code_of db (xworld_of db, []) (P ++ [OSnapshot] ++ Q) = Some (vp ++ [VUnit] ++ vq, (wq, snq))).
    { rewrite xrun_app, EP, xrun_app. cbn [xrun xstep]. now rewrite EQ. }
    destruct (exact_answers _ _ _ CPQ EPQ) as (_ & Ht & _). cbn [fst] in Ht.
    rewrite Hi in Hk. destruct (xkeeps_run sn1 Q w1 [w1] vq wq snq Hk EQ ltac:(cbn; lia)) as (t & -> & Hh & Hlt). destruct t as [|t0 t]; [cbn in Hlt; lia|]. cbn in Hh. injection Hh as ->.
    rewrite xrun_app in E0. cbn [xrun xstep] in E0. rewrite Hi in E0. rewrite nth_error_app2, Nat.sub_diag in E0 by lia. cbn [nth_error] in E0.
    rewrite firstn_app, (firstn_all2 sn1) in E0 by lia. replace (S (length sn1) - length sn1)%nat with 1%nat in E0 by lia. change (firstn 1 (w1 :: t)) with [w1] in E0.
    destruct (xrun keccak code_of db (x_restore w1 wq, sn1 ++ [w1]) T) as [[v [w3 sn3]]|] eqn:ET; [|discriminate]. injection E0 as E1 E2. exists v. split; [eapply xrun_length; exact ET|].
    assert (EPQR : xrun keccak code_of db (xworld_of db, []) (P ++ [OSnapshot] ++ Q ++ [ORevert i]) = Some (vp ++ [VUnit] ++ vq ++ [VUnit], (x_restore w1 wq, sn1 ++ [w1]))).
    { rewrite xrun_app, EP, xrun_app. cbn [xrun xstep]. rewrite xrun_app, EQ. cbn [xrun xstep]. rewrite Hi, nth_error_app2, Nat.sub_diag by lia. cbn [nth_error].
      rewrite firstn_app, (firstn_all2 sn1) by lia. replace (S (length sn1) - length sn1)%nat with 1%nat by lia. reflexivity. }
    destruct (exact_answers _ _ _ CPQR EPQR) as (-> & _). split.
    - unfold history. rewrite Hi. etransitivity; [symmetry; exact E1|]. rewrite <- !app_assoc. reflexivity.
    - assert (CA : codes_apart keccak code_of ((P ++ [OSnapshot] ++ again) ++ T)).
      { destruct Hc as (C1 & C2). split; [exact C1|]. intros c Hin. apply C2. unfold history. rewrite !flat_map_app, !in_app_iff in *. unfold again in Hin. destruct (bool_decide _); cbn in Hin |- *; tauto. }
      assert (EA : xrun keccak code_of db (xworld_of db, []) (P ++ [OSnapshot] ++ again) = Some (vp ++ [VUnit] ++ map (fun _ => VUnit) again, (x_restore w1 wq, sn1 ++ [w1]))).
      { rewrite xrun_app, EP, xrun_app. cbn [xrun xstep]. unfold again, x_restore. rewrite Ht. destruct (bool_decide (3 ∈ x_touched wq)); cbn [xrun xstep map]; [reflexivity|]. now destruct w1. }
      assert (EAT : xrun keccak code_of db (xworld_of db, []) ((P ++ [OSnapshot] ++ again) ++ T) = Some ((vp ++ [VUnit] ++ map (fun _ => VUnit) again) ++ v, (w3, sn3))).
      { rewrite xrun_app, EA, ET. reflexivity. }
      pose proof (exact_answers _ _ _ CA EAT) as (A1 & _). apply codes_part in CA as (CA & _). pose proof (exact_answers _ _ _ CA EA) as (A2 & _).
      rewrite A2, <- A1. f_equal. now rewrite <- !app_assoc.
  Qed.
End Final.
