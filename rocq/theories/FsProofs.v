(** Facts about the file system. *)
From stdpp Require Import gmap.
From Verif Require Import Base BaseFacts FsModel DataDirSpec.

Lemma comps_ne p : exists w r, comps p = w :: r.
Proof. induction p as [|c t (w & r & E)]; cbn; [eauto|]. destruct (c =? 47); [eauto|]. rewrite E. eauto. Qed.
Lemma comps_app a b : comps (a ++ 47 :: b) = comps a ++ comps b.
Proof.
  induction a as [|c a IH]; [reflexivity|]. cbn [comps app]. destruct (c =? 47); [now rewrite IH|].
  destruct (comps_ne a) as (w & r & E). rewrite IH, E. reflexivity.
Qed.
Lemma comps_name a : Forall (fun c => c <> 47) a -> comps a = [a].
Proof. induction 1 as [|c a H _ IH]; [reflexivity|]. cbn. destruct (N.eqb_spec c 47); [congruence|]. now rewrite IH. Qed.

Lemma walk_app f a b at_ : walk f at_ (a ++ b) = match walk f at_ a with Some l => walk f l b | None => None end.
Proof. revert at_. induction a as [|c a IH]; intros at_; [reflexivity|]. cbn. destruct (f !! at_) as [[]|]; auto. Qed.
Lemma walk_fold f cs at_ l : walk f at_ cs = Some l -> l = fold_left step cs at_.
Proof. revert at_. induction cs as [|c cs IH]; intros at_; cbn; [now intros [= <-]|]. destruct (f !! at_) as [[]|]; try discriminate. apply IH. Qed.
Lemma walk_mono f f' cs at_ l : f ⊆ f' -> walk f at_ cs = Some l -> walk f' at_ cs = Some l.
Proof.
  intros S. revert at_. induction cs as [|c cs IH]; intros at_; cbn; [auto|]. destruct (f !! at_) as [[]|] eqn:E; try discriminate.
  rewrite (lookup_weaken _ _ _ _ E S). apply IH.
Qed.

Lemma removelast_app_one {A} (l : list A) x : removelast (l ++ [x]) = l.
Proof. rewrite removelast_app by discriminate. apply app_nil_r. Qed.
Lemma removelast_last {A} (l : list A) : l <> [] -> exists x, l = removelast l ++ [x].
Proof. intros H. destruct (exists_last H) as (l' & x & ->). exists x. now rewrite removelast_app_one. Qed.
Lemma ok_parent f l : fs_ok f -> l <> [] -> f !! l <> None -> f !! removelast l = Some Dir.
Proof.
  intros (_ & P) H1 H2. destruct (removelast_last l H1) as (x & E). destruct (f !! l) as [n|] eqn:En; [|congruence].
  apply (P _ x n). now rewrite <- E.
Qed.
Lemma step_cases l c : step l c = l \/ step l c = removelast l \/ step l c = l ++ [c].
Proof.
  unfold step. destruct c as [|x [|y [|z c]]]; auto.
  - destruct (N.eqb_spec x 46) as [->|H]; [auto|]. right. right. destruct x as [|p]; [reflexivity|]. repeat (destruct p; try reflexivity). congruence.
  - destruct (N.eqb_spec x 46) as [->|H].
    + destruct (N.eqb_spec y 46) as [->|H]; [auto|]. right. right. destruct y as [|p]; [reflexivity|]. repeat (destruct p; try reflexivity). congruence.
    + right. right. destruct x as [|p]; [reflexivity|]. repeat (destruct p; try reflexivity). congruence.
  - right. right. destruct x as [|p]; [reflexivity|]. repeat (destruct p; try reflexivity).
    destruct y as [|p]; [reflexivity|]. repeat (destruct p; try reflexivity).
Qed.
Lemma ok_insert f l c : fs_ok f -> f !! l = Some Dir -> f !! step l c = None -> fs_ok (<[step l c := Dir]> f) /\ step l c = l ++ [c].
Proof.
  intros K D N0. assert (E : step l c = l ++ [c]).
  { destruct (step_cases l c) as [E|[E|E]]; [congruence| |exact E]. destruct (decide (l = [])) as [->|Hl]; [cbn in E; congruence|].
    rewrite E in N0. rewrite (ok_parent f l K Hl) in N0; congruence. }
  split; [|exact E]. destruct K as (R & P). rewrite E in *. split.
  - rewrite lookup_insert_ne by (intros X; now apply app_nil in X as (_ & ?)). exact R.
  - intros m x n. destruct (decide (l ++ [c] = m ++ [x])) as [Q|Q].
    + apply app_inj_tail in Q as (-> & ->). intros _. rewrite lookup_insert_ne; [exact D|]. intros X. apply (f_equal length) in X. rewrite app_length in X. cbn in X. lia.
    + rewrite lookup_insert_ne by exact Q. intros H. apply P in H. destruct (decide (l ++ [c] = m)) as [<-|]; [congruence|]. now rewrite lookup_insert_ne.
Qed.

(** What create_directories makes are the directories the path goes through. *)
Definition passed (at_ : loc) (cs : list bytes) (q : loc) : Prop := exists k, q = fold_left step (firstn k cs) at_.
Lemma mkdirs_spec cs : forall f at_ made f' r, fs_ok f -> mkdirs f at_ cs made = (f', r) ->
  f ⊆ f' /\ fs_ok f' /\ (forall q n, f' !! q = Some n -> f !! q = Some n \/ (f !! q = None /\ n = Dir /\ passed at_ cs q))
  /\ (match r with
      | Some m => walk f' at_ cs = Some (fold_left step cs at_) /\ f' !! fold_left step cs at_ = Some Dir /\ (m = made \/ m = true) /\ (m = false -> f' = f)
      | None => exists k, match f' !! fold_left step (firstn k cs) at_ with Some Dir => False | _ => f !! fold_left step (firstn k cs) at_ = f' !! fold_left step (firstn k cs) at_ end
      end).
Proof.
  induction cs as [|c cs IH]; intros f at_ made f' r K; cbn [mkdirs].
  - destruct (f !! at_) as [[|d]|] eqn:E; intros [= <- <-]; (split; [reflexivity|]); (split; [exact K|]); (split; [auto|]).
    + cbn. repeat split; auto.
    + exists O. cbn. now rewrite E.
    + exists O. cbn. now rewrite E.
  - destruct (f !! at_) as [[|d]|] eqn:E.
    2,3: intros [= <- <-]; (split; [reflexivity|]); (split; [exact K|]); (split; [auto|]); exists O; cbn; now rewrite E.
    destruct (f !! step at_ c) as [n|] eqn:E2; intros M.
    + destruct (IH _ _ _ _ _ K M) as (S & K' & New & R). split; [exact S|]. split; [exact K'|]. split.
      { intros q m Hq. destruct (New q m Hq) as [|(? & ? & k & Hk)]; [auto|right]. repeat split; auto. now exists (Datatypes.S k). }
      destruct r as [m|].
      * cbn. rewrite (lookup_weaken _ _ _ _ E S). exact R.
      * destruct R as (k & R). now exists (Datatypes.S k).
    + destruct (ok_insert f at_ c K E E2) as (K1 & Es). destruct (IH _ _ _ _ _ K1 M) as (S & K' & New & R).
      assert (S0 : f ⊆ f') by (etransitivity; [apply insert_subseteq; exact E2|exact S]). split; [exact S0|]. split; [exact K'|]. split.
      { intros q m Hq. destruct (New q m Hq) as [H|(H & ? & k & Hk)].
        - destruct (decide (step at_ c = q)) as [<-|Q].
          + rewrite lookup_insert in H. injection H as <-. right. repeat split; auto. exists 1%nat. reflexivity.
          + rewrite lookup_insert_ne in H by exact Q. auto.
        - right. destruct (decide (step at_ c = q)) as [<-|Q]; [now rewrite lookup_insert in H|]. rewrite lookup_insert_ne in H by exact Q.
          repeat split; auto. now exists (Datatypes.S k). }
      destruct r as [m|].
      * cbn. rewrite (lookup_weaken _ _ _ _ E S0). destruct R as (? & ? & R3 & R4). repeat split; auto; [destruct R3; auto|]. intros ->. destruct R3; discriminate.
      * destruct R as (k & R). exists (Datatypes.S k). cbn. destruct (f' !! fold_left step (firstn k cs) (step at_ c)) as [[|d]|] eqn:Ef; [exact R| |].
        -- destruct (New _ _ Ef) as [H|(_ & ? & _)]; [|congruence]. rewrite <- Ef.
           destruct (decide (step at_ c = fold_left step (firstn k cs) (step at_ c))) as [Q|Q]; [rewrite <- Q in H; rewrite lookup_insert in H; congruence|].
           rewrite lookup_insert_ne in H by exact Q. congruence.
        -- destruct (decide (step at_ c = fold_left step (firstn k cs) (step at_ c))) as [Q|Q]; [rewrite <- Q, lookup_insert in R; congruence|].
           now rewrite lookup_insert_ne in R by exact Q.
Qed.
