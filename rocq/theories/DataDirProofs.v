(** Proofs about data directories, temporary directories and the opening of environments. *)
From stdpp Require Import gmap.
From Verif Require Import Base BaseFacts FsModel FsProofs UtilModel DataDirModel DataDirSpec.

(** *** Strings and tokens *)
Lemma last_app_one (b : bytes) x d : last (b ++ [x]) d = x.
Proof. induction b as [|y b IH]; [reflexivity|]. cbn [app last]. destruct (b ++ [x]) eqn:E; [now destruct b|exact IH]. Qed.
Lemma slashed_end b : ends_with_slash b -> slashed b = b.
Proof.
  intros (b0 & ->). unfold slashed, has_filename. destruct (b0 ++ [47]) eqn:E; [now destruct b0|]. rewrite <- E, last_app_one. reflexivity.
Qed.
Lemma slashed_ends p : p <> [] -> ends_with_slash (slashed p).
Proof.
  intros H. destruct (exists_last H) as (q & x & ->). unfold slashed, has_filename. destruct (q ++ [x]) eqn:E; [now destruct q|]. rewrite <- E, last_app_one.
  destruct (N.eqb_spec x 47) as [->|]; cbn [negb]; [now exists q|now exists (q ++ [x])].
Qed.
Lemma slashed_name b k x : x <> 47 -> slashed (b ++ k ++ [x]) = b ++ k ++ [x] ++ [47].
Proof.
  intros H. unfold slashed, has_filename. rewrite !app_assoc. destruct ((b ++ k) ++ [x]) eqn:E; [now destruct (b ++ k)|].
  rewrite <- E, last_app_one. destruct (N.eqb_spec x 47); [congruence|]. cbn [negb]. now rewrite <- !app_assoc.
Qed.
Lemma slashed_start cwd p : start cwd (slashed p) = start cwd p.
Proof. unfold slashed. destruct (has_filename p) eqn:E; [|reflexivity]. destruct p as [|c p]; [discriminate|]. reflexivity. Qed.
Lemma start_app cwd b x : b <> [] -> start cwd (b ++ x) = start cwd b.
Proof. now destruct b. Qed.

Lemma paths_of_eq b v : paths_of b v = mkDataDir (slashed b) (slashed b ++ k_erigon ++ [47] ++ k_chaindata ++ [47])
  (slashed b ++ k_nodes ++ [47]) (slashed b ++ k_etl ++ [47]) v.
Proof.
  unfold paths_of, append. f_equal.
  - change k_erigon with (firstn 5 k_erigon ++ [110]). rewrite (slashed_name (slashed b) _ 110) by discriminate.
    change k_chaindata with (firstn 8 k_chaindata ++ [97]). rewrite <- !app_assoc.
    replace (slashed b ++ firstn 5 k_erigon ++ [110] ++ [47] ++ firstn 8 k_chaindata ++ [97]) with ((slashed b ++ firstn 5 k_erigon ++ [110] ++ [47]) ++ firstn 8 k_chaindata ++ [97])
      by (now rewrite <- !app_assoc).
    rewrite slashed_name by discriminate. now rewrite <- !app_assoc.
  - change k_nodes with (firstn 4 k_nodes ++ [115]). rewrite slashed_name by discriminate. now rewrite <- !app_assoc.
  - change k_etl with (firstn 7 k_etl ++ [112]). rewrite slashed_name by discriminate. now rewrite <- !app_assoc.
Qed.
Lemma paths_of_slashed b v : paths_of (slashed b) v = paths_of b v.
Proof.
  rewrite !paths_of_eq. destruct b as [|c b]; [reflexivity|]. now rewrite (slashed_end (slashed (c :: b))) by (apply slashed_ends; discriminate).
Qed.

Lemma find_none s : find_sub [47] s = None -> comps s = [s].
Proof.
  induction s as [|c s IH]; [reflexivity|]. cbn [find_sub starts_with]. destruct (N.eqb_spec 47 c) as [<-|H]; [discriminate|].
  destruct (find_sub [47] s) as [[a r]|]; [discriminate|]. intros _. cbn [comps]. destruct (N.eqb_spec c 47); [congruence|]. now rewrite IH.
Qed.
Lemma find_some s a r : find_sub [47] s = Some (a, r) -> comps s = a :: comps r /\ (length r < length s)%nat.
Proof.
  revert a r. induction s as [|c s IH]; intros a r; [discriminate|]. cbn [find_sub starts_with]. destruct (N.eqb_spec 47 c) as [<-|H].
  - intros [= <- <-]. cbn. split; [reflexivity|lia].
  - destruct (find_sub [47] s) as [[a' r']|]; [|discriminate]. intros [= <- <-]. destruct (IH _ _ eq_refl) as (E & L). cbn [comps].
    destruct (N.eqb_spec c 47); [congruence|]. rewrite E. split; [reflexivity|cbn; lia].
Qed.
(** Tokens of a string ending with the delimiter. *)
Lemma split_loop_slash n s0 : (length s0 < n)%nat -> split_loop n [47] (s0 ++ [47]) = Some (comps s0).
Proof.
  revert s0. induction n as [|n IH]; intros s0 L; [lia|]. cbn [split_loop].
  assert (C : comps (s0 ++ [47]) = comps s0 ++ [[]]) by apply (comps_app s0 []).
  destruct (find_sub [47] (s0 ++ [47])) as [[a r]|] eqn:E.
  - destruct (find_some _ _ _ E) as (C' & L'). rewrite C in C'. destruct (comps_ne s0) as (w & t & Et). rewrite Et in C'. cbn in C'. injection C' as <- Cr.
    destruct r as [|x r].
    + destruct n; cbn; rewrite Et; destruct t; cbn in *; try discriminate; try reflexivity; destruct t; discriminate.
    + destruct (exists_last (l := x :: r) ltac:(discriminate)) as (r0 & y & Er). rewrite Er in *.
      assert (y = 47 /\ t = comps r0) as (-> & ->).
      { assert (Hr : exists u, s0 ++ [47] = u ++ r0 ++ [y]).
        { clear -E. revert w r0 y E. induction (s0 ++ [47]) as [|c s IHs]; intros w r0 y; [discriminate|]. cbn [find_sub starts_with].
          destruct (N.eqb_spec 47 c); [intros [= <- <-]; now exists [c]|]. destruct (find_sub [47] s) as [[a' r']|]; [|discriminate].
          intros [= <- ->]. destruct (IHs _ _ _ eq_refl) as (u & ->). now exists (c :: u). }
        destruct Hr as (u & Hr). rewrite app_assoc in Hr. apply app_inj_tail in Hr as (_ & <-). split; [reflexivity|].
        rewrite (comps_app r0 []) in Cr. now apply app_inj_tail in Cr as (? & _). }
      rewrite IH; [now rewrite Et|]. rewrite !app_length in L'. cbn in L'. lia.
  - apply find_none in E. rewrite C in E. destruct (comps_ne s0) as (w & t & Et). rewrite Et in E. destruct t; discriminate.
Qed.
Lemma split_slash s0 : s0 <> [] -> split (s0 ++ [47]) [47] = Some (comps s0).
Proof.
  intros H. unfold split. rewrite blen_app. replace (blen [47]) with 1 by reflexivity. assert (0 < blen s0) by (destruct s0; [congruence|]; rewrite blen_cons; lia).
  destruct (N.leb_spec (blen s0 + 1) 1); [lia|]. cbn [orb N.eqb Pos.eqb]. apply split_loop_slash. rewrite app_length. cbn. lia.
Qed.
Definition flat (ts : list bytes) : bytes := concat (map (fun t => t ++ [47]) ts).
Lemma flat_app a b : flat (a ++ b) = flat a ++ flat b.
Proof. unfold flat. now rewrite map_app, concat_app. Qed.
Lemma flat_comps s : flat (comps s) = s ++ [47].
Proof.
  induction s as [|c s IH]; [reflexivity|]. cbn [comps]. destruct (N.eqb_spec c 47) as [->|H].
  - cbn. now rewrite <- IH.
  - destruct (comps_ne s) as (w & r & E). rewrite E in *. cbn in *. now rewrite IH.
Qed.
Lemma base_of_flat ts n : base_of ts n = flat (firstn n ts).
Proof. revert ts. induction n as [|n IH]; intros ts; [now destruct ts|]. destruct ts as [|t ts]; [reflexivity|]. cbn [base_of firstn]. rewrite IH. unfold flat. cbn [map concat]. now rewrite <- app_assoc. Qed.
Lemma flat_ends ts : ts <> [] -> ends_with_slash (flat ts).
Proof. intros H. destruct (exists_last H) as (t & x & ->). rewrite flat_app. unfold flat at 2. cbn. rewrite app_nil_r, app_assoc. now eexists. Qed.
Lemma last_two {A} (l : list A) d : (2 < length l)%nat -> exists t e c, t <> [] /\ l = t ++ [e; c] /\ nth (length l - 1) l d = c /\ nth (length l - 2) l d = e /\ firstn (length l - 2) l = t.
Proof.
  intros H. destruct (@exists_last _ l) as (l1 & c & ->); [now destruct l|]. rewrite app_length in *. cbn in H.
  destruct (@exists_last _ l1) as (t & e & ->); [destruct l1; cbn in *; [lia|discriminate]|]. rewrite app_length in *. cbn in H.
  exists t, e, c. split; [destruct t; cbn in *; [lia|discriminate]|]. rewrite <- app_assoc. split; [reflexivity|]. cbn [length].
  split; [|split].
  - rewrite app_nth2 by lia. replace (length t + 1 + 1 - 1 - length t)%nat with 1%nat by lia. reflexivity.
  - rewrite app_nth2 by lia. replace (length t + 1 + 1 - 2 - length t)%nat with 0%nat by lia. reflexivity.
  - replace (length t + 1 + 1 - 2)%nat with (length t + 0)%nat by lia. now rewrite firstn_app_2, firstn_O, app_nil_r.
Qed.

Lemma status_dir f cwd p : is_directory f cwd p = true <-> status f cwd p = Some Dir.
Proof. unfold is_directory. destruct (status f cwd p) as [[]|]; split; congruence. Qed.
Lemma dir_exists f cwd p : status f cwd p = Some Dir -> exists_ f cwd p = true.
Proof. unfold exists_. now intros ->. Qed.
Lemma status_slashed f cwd p : status f cwd p = Some Dir -> status f cwd (slashed p) = Some Dir.
Proof.
  unfold status, place. unfold slashed. destruct (has_filename p) eqn:E; [|auto]. destruct p as [|c p]; [discriminate|].
  rewrite (start_app cwd (c :: p) [47]) by discriminate. replace (comps ((c :: p) ++ [47])) with (comps (c :: p) ++ [[]]) by (symmetry; apply (comps_app (c :: p) [])).
  change ((c :: p) ++ [47]) with (c :: p ++ [47]). cbn match. rewrite walk_app. destruct (walk f (start cwd (c :: p)) (comps (c :: p))) as [l|]; [|discriminate].
  intros H. cbn [walk step]. now rewrite H.
Qed.

(** *** from_chaindata *)
Lemma from_chaindata_unfold f cwd p r : from_chaindata f cwd p = r -> status f cwd p = Some Dir -> r = (f, None) \/
  exists b e c, slashed p = b ++ e ++ [47] ++ c ++ [47] /\ iequals e k_erigon = true /\ iequals c k_chaindata = true /\ ends_with_slash b
    /\ r = data_directory f cwd b false.
Proof.
  unfold from_chaindata. intros <- D. rewrite (dir_exists _ _ _ D), (proj2 (status_dir _ _ _) D). cbn [negb orb].
  assert (H : p <> []) by (intros ->; discriminate). destruct (slashed_ends p H) as (s0 & E). rewrite E.
  destruct s0 as [|x s0].
  { left. reflexivity. }
  rewrite split_slash by discriminate. destruct (Nat.leb_spec (length (comps (x :: s0))) 2) as [|L]; [now left|].
  destruct (last_two (comps (x :: s0)) [] L) as (t & e & c & Ht & Et & -> & -> & Hb).
  destruct (iequals c k_chaindata) eqn:Ec; [|now left]. destruct (iequals e k_erigon) eqn:Ee; [|now left]. cbn [negb orb]. right.
  exists (flat t), e, c. split; [|split; [exact Ee|split; [exact Ec|split; [now apply flat_ends|]]]].
  - rewrite <- flat_comps, Et, flat_app. unfold flat at 2. cbn [map concat]. rewrite app_nil_r, <- !app_assoc. reflexivity.
  - now rewrite base_of_flat, Hb.
Qed.
Lemma chaindata_accepts f cwd p f' d : from_chaindata f cwd p = (f', Some d) ->
  f' = f /\ status f cwd p = Some Dir /\ exists b e c, slashed p = b ++ e ++ [47] ++ c ++ [47] /\ iequals e k_erigon = true /\ iequals c k_chaindata = true
    /\ dd_base d = b /\ dd_chaindata d = b ++ k_erigon ++ [47] ++ k_chaindata ++ [47].
Proof.
  intros H. assert (D : status f cwd p = Some Dir).
  { unfold from_chaindata in H. apply status_dir. destruct (is_directory f cwd p); [reflexivity|]. cbn [negb] in H. rewrite orb_true_r in H. discriminate. }
  destruct (from_chaindata_unfold _ _ _ _ H D) as [Q|(b & e & c & E & Ee & Ec & Hb & Q)]; [discriminate|].
  cbn [data_directory negb] in Q. injection Q as -> ->. split; [reflexivity|]. split; [exact D|]. exists b, e, c. rewrite paths_of_eq, (slashed_end b Hb). cbn. auto 10.
Qed.

Lemma comps_chain b0 : comps (b0 ++ [47] ++ k_erigon ++ [47] ++ k_chaindata ++ [47]) = comps b0 ++ [k_erigon; k_chaindata; []].
Proof.
  cbn [app]. rewrite (comps_app b0). f_equal.
Qed.
Lemma comps_sub b0 k : Forall (fun c => c <> 47) k -> comps (b0 ++ [47] ++ k ++ [47]) = comps b0 ++ [k; []].
Proof. intros H. cbn [app]. rewrite (comps_app b0). f_equal. rewrite (comps_app k []). rewrite (comps_name k H). reflexivity. Qed.
Lemma app_ends_ne b x : ends_with_slash b -> b ++ x <> [].
Proof. intros (b0 & ->) E. apply app_nil in E as (E & _). destruct b0; discriminate. Qed.
Lemma place_eq f cwd p : p <> [] -> place f cwd p = walk f (start cwd p) (comps p).
Proof. now destruct p. Qed.

Lemma chaindata_ok f cwd b p : ends_with_slash b -> slashed p = b ++ k_erigon ++ [47] ++ k_chaindata ++ [47] -> status f cwd p = Some Dir ->
  from_chaindata f cwd p = (f, Some (paths_of b true)).
Proof.
  intros Hb E D. unfold from_chaindata. rewrite (dir_exists _ _ _ D), (proj2 (status_dir _ _ _) D). cbn [negb orb]. pose proof (status_slashed _ _ _ D) as D2. rewrite E in *.
  pose proof Hb as (b0 & ->). rewrite <- !app_assoc in *.
  replace (b0 ++ [47] ++ k_erigon ++ [47] ++ k_chaindata ++ [47]) with ((b0 ++ [47] ++ k_erigon ++ [47] ++ k_chaindata) ++ [47]) by (now rewrite <- !app_assoc).
  rewrite split_slash by (destruct b0; discriminate).
  assert (C : comps (b0 ++ [47] ++ k_erigon ++ [47] ++ k_chaindata) = comps b0 ++ [k_erigon; k_chaindata]).
  { cbn [app]. rewrite (comps_app b0). f_equal. }
  rewrite C. clear C. remember (comps b0 ++ [k_erigon; k_chaindata]) as ts eqn:C. destruct (comps_ne b0) as (w & r & Ew).
  assert (L : (2 < length ts)%nat) by (rewrite C, app_length, Ew; cbn; lia). destruct (Nat.leb_spec (length ts) 2); [lia|].
  destruct (last_two ts [] L) as (t & e & c & Ht & Et & -> & -> & Hb'). rewrite C in Et.
  change ([e; c]) with ([e] ++ [c]) in Et. change ([k_erigon; k_chaindata]) with ([k_erigon] ++ [k_chaindata]) in Et. rewrite !app_assoc in Et.
  apply app_inj_tail in Et as (Et & <-). apply app_inj_tail in Et as (Et & <-). subst t.
  replace (iequals k_chaindata k_chaindata) with true by reflexivity. replace (iequals k_erigon k_erigon) with true by reflexivity. cbn [negb orb].
  rewrite base_of_flat, Hb', flat_comps. unfold data_directory. cbn [negb]. rewrite (slashed_end (b0 ++ [47])) by now exists b0.
  assert (S : status f cwd (b0 ++ [47]) = Some Dir).
  { unfold status in *. rewrite place_eq in D2 by (destruct b0; discriminate). rewrite comps_chain in D2.
    rewrite place_eq by (destruct b0; discriminate). replace (comps (b0 ++ [47])) with (comps b0 ++ [[]]) by (symmetry; apply (comps_app b0 [])).
    replace (start cwd (b0 ++ [47] ++ k_erigon ++ [47] ++ k_chaindata ++ [47])) with (start cwd (b0 ++ [47])) in D2
      by (rewrite (app_assoc b0 [47]); symmetry; apply start_app; destruct b0; discriminate).
    rewrite walk_app in *. destruct (walk f (start cwd (b0 ++ [47])) (comps b0)) as [l|]; [|discriminate]. cbn [walk] in *.
    destruct (f !! l) as [[|]|] eqn:El; [|discriminate|discriminate]. cbn [step]. exact El. }
  rewrite (dir_exists _ _ _ S), (proj2 (status_dir _ _ _) S). reflexivity.
Qed.
Lemma chaindata_round_trip f cwd b v : b <> [] -> status f cwd (dd_chaindata (paths_of b v)) = Some Dir ->
  from_chaindata f cwd (dd_chaindata (paths_of b v)) = (f, Some (paths_of b true)).
Proof.
  intros H D. rewrite <- (paths_of_slashed b true). apply chaindata_ok; [now apply slashed_ends| |exact D].
  rewrite paths_of_eq. cbn [dd_chaindata]. apply slashed_end. exists (slashed b ++ k_erigon ++ [47] ++ k_chaindata). now rewrite <- !app_assoc.
Qed.

(** *** Making and clearing directories *)
Lemma mkdirs_fails cs : forall f at_ made f', fs_ok f -> f !! at_ = Some Dir -> mkdirs f at_ cs made = (f', None) ->
  exists k d, f !! fold_left step (firstn k cs) at_ = Some (File d).
Proof.
  induction cs as [|c cs IH]; intros f at_ made f' K D; cbn [mkdirs]; rewrite D; [discriminate|].
  destruct (f !! step at_ c) as [[|d]|] eqn:E; intros M.
  - destruct (IH _ _ _ _ K E M) as (k & d & H). now exists (S k), d.
  - exists 1%nat, d. exact E.
  - destruct (ok_insert f at_ c K D E) as (K1 & _). destruct (IH _ _ _ _ K1 ltac:(apply lookup_insert) M) as (k & d & H). exists (S k), d. cbn.
    destruct (decide (step at_ c = fold_left step (firstn k cs) (step at_ c))) as [Q|Q]; [rewrite <- Q, lookup_insert in H; discriminate|]. now rewrite lookup_insert_ne in H.
Qed.
Lemma passed_way cwd p q : passed (start cwd p) (comps p) q -> on_the_way cwd p q.
Proof. intros (k & ->). exists (firstn k (comps p)), (skipn k (comps p)). split; [now rewrite firstn_skipn|reflexivity]. Qed.
Lemma sub_kept (f f' : fsys) : f ⊆ f' <-> kept f f'.
Proof. apply map_subseteq_spec. Qed.
Lemma create_dirs f cwd p f' r : fs_ok f -> create_directories f cwd p = (f', r) ->
  kept f f' /\ fs_ok f' /\ new_only f f' (on_the_way cwd p)
  /\ (match r with Some m => p <> [] /\ status f' cwd p = Some Dir /\ (m = false -> f' = f) | None => f !! cwd = Some Dir -> p = [] \/ blocked f cwd p end).
Proof.
  intros K. unfold create_directories. destruct p as [|c p]; [intros [= <- <-]; split; [now intros q n|split; [exact K|split; [now left|now left]]]|].
  intros M. pose proof (mkdirs_spec _ _ _ _ _ _ K M) as (S & K' & New & R). split; [now apply sub_kept|]. split; [exact K'|]. split.
  { intros q n Hq. destruct (New q n Hq) as [|(_ & -> & P)]; [auto|right]. split; [reflexivity|now apply passed_way]. }
  destruct r as [m|].
  - destruct R as (W & D & _ & R). split; [discriminate|]. split; [|exact R]. unfold status. rewrite place_eq by discriminate. now rewrite W.
  - intros Dc. right. assert (Ds : f !! start cwd (c :: p) = Some Dir) by (unfold start; destruct K as (K0 & _); destruct c as [|q]; [exact Dc|]; do 6 (destruct q as [q|q|]; try exact Dc); exact K0).
    destruct (mkdirs_fails _ _ _ _ _ K Ds M) as (k & d & H). eexists _, d. split; [|exact H]. apply passed_way. now exists k.
Qed.
Lemma kept_status f f' cwd p n : kept f f' -> status f cwd p = Some n -> status f' cwd p = Some n.
Proof.
  intros K. unfold status, place. destruct p as [|c p]; [discriminate|]. destruct (walk f _ _) as [l|] eqn:W; [|discriminate].
  rewrite (walk_mono f f' _ _ _ (proj2 (sub_kept f f') K) W). apply K.
Qed.
Lemma kept_trans f g h : kept f g -> kept g h -> kept f h.
Proof. unfold kept. auto. Qed.
Lemma data_directory_plain f cwd b f' d : data_directory f cwd b false = (f', d) ->
  f' = f /\ exists v, d = Some (paths_of b v) /\ (v = true <-> status f cwd (slashed b) = Some Dir).
Proof.
  cbn [data_directory negb]. intros [= <- <-]. split; [reflexivity|]. eexists. split; [reflexivity|]. rewrite andb_true_iff, status_dir. split; [now intros (_ & ?)|].
  intros H. split; [now apply dir_exists|exact H].
Qed.
Lemma data_directory_create f cwd b f' d : fs_ok f -> f !! cwd = Some Dir -> data_directory f cwd b true = (f', d) ->
  kept f f' /\ fs_ok f' /\ new_only f f' (on_the_way cwd (slashed b)) /\
  (match d with Some d => d = paths_of b true /\ status f' cwd (slashed b) = Some Dir | None => b = [] \/ blocked f cwd (slashed b) end).
Proof.
  intros K Dc. cbn [data_directory negb]. destruct (create_directories f cwd (slashed b)) as [g r] eqn:M. destruct (create_dirs _ _ _ _ _ K M) as (A & B & C & D).
  intros [= <- <-]. split; [exact A|]. split; [exact B|]. split; [exact C|]. destruct r as [m|].
  - destruct D as (_ & D & _). rewrite (dir_exists _ _ _ D). auto.
  - destruct (D Dc) as [E|E]; [|auto]. left. destruct b; [reflexivity|]. destruct (slashed_ends (n :: b) ltac:(discriminate)) as (b0 & Eb). rewrite Eb in E. now destruct b0.
Qed.
Definition tree_way (cwd : loc) (d : datadir) (q : loc) : Prop :=
  on_the_way cwd (dd_chaindata d) q \/ on_the_way cwd (dd_nodes d) q \/ on_the_way cwd (dd_etl d) q.
Lemma new_blocked f f' cwd p w : new_only f f' w -> blocked f' cwd p -> blocked f cwd p.
Proof. intros N (q & d & H & E). exists q, d. split; [exact H|]. destruct (N _ _ E) as [|(? & _)]; [auto|discriminate]. Qed.
Lemma create_tree_ok f cwd b v f' ok : fs_ok f -> f !! cwd = Some Dir -> let d := paths_of b v in create_tree f cwd d = (f', ok) ->
  kept f f' /\ fs_ok f' /\ new_only f f' (tree_way cwd d) /\
  (if ok then status f' cwd (dd_chaindata d) = Some Dir /\ status f' cwd (dd_nodes d) = Some Dir /\ status f' cwd (dd_etl d) = Some Dir
   else blocked f cwd (dd_chaindata d) \/ blocked f cwd (dd_nodes d) \/ blocked f cwd (dd_etl d)).
Proof.
  intros K Dc d. unfold create_tree.
  assert (Ne : dd_chaindata d <> [] /\ dd_nodes d <> [] /\ dd_etl d <> []).
  { unfold d. rewrite paths_of_eq. cbn [dd_chaindata dd_nodes dd_etl]. repeat split; intros E; apply app_nil in E as (_ & E); discriminate. }
  destruct Ne as (N1 & N2 & N3).
  destruct (create_directories f cwd (dd_chaindata d)) as [f1 r1] eqn:M1. destruct (create_dirs _ _ _ _ _ K M1) as (A1 & K1 & W1 & R1).
  assert (W1' : new_only f f1 (tree_way cwd d)) by (intros q n H; destruct (W1 q n H) as [|(? & ?)]; [auto|right; split; [auto|now left]]).
  destruct r1 as [m1|].
  2:{ intros [= <- <-]. split; [exact A1|]. split; [exact K1|]. split; [exact W1'|]. destruct (R1 Dc); [congruence|auto]. }
  destruct R1 as (_ & D1 & _).
  destruct (create_directories f1 cwd (dd_nodes d)) as [f2 r2] eqn:M2. destruct (create_dirs _ _ _ _ _ K1 M2) as (A2 & K2 & W2 & R2).
  assert (A2' : kept f f2) by (eapply kept_trans; eassumption).
  assert (W2' : new_only f f2 (tree_way cwd d)) by (intros q n H; destruct (W2 q n H) as [H'|(? & ?)]; [auto|right; split; [auto|right; now left]]).
  destruct r2 as [m2|].
  2:{ intros [= <- <-]. split; [exact A2'|]. split; [exact K2|]. split; [exact W2'|]. destruct (R2 (A1 _ _ Dc)) as [|B]; [congruence|]. right. left. exact (new_blocked _ _ _ _ _ W1' B). }
  destruct R2 as (_ & D2 & _).
  destruct (create_directories f2 cwd (dd_etl d)) as [f3 r3] eqn:M3. destruct (create_dirs _ _ _ _ _ K2 M3) as (A3 & K3 & W3 & R3).
  assert (A3' : kept f f3) by (eapply kept_trans; eassumption).
  assert (W3' : new_only f f3 (tree_way cwd d)) by (intros q n H; destruct (W3 q n H) as [H'|(? & ?)]; [auto|right; split; [auto|right; now right]]).
  destruct r3 as [m3|].
  2:{ intros [= <- <-]. split; [exact A3'|]. split; [exact K3|]. split; [exact W3'|]. destruct (R3 (A2' _ _ Dc)) as [|B]; [congruence|]. right. right. exact (new_blocked _ _ _ _ _ W2' B). }
  destruct R3 as (_ & D3 & _). pose proof (kept_status _ _ _ _ _ A3 (kept_status _ _ _ _ _ A2 D1)) as D1'. pose proof (kept_status _ _ _ _ _ A3 D2) as D2'.
  rewrite (proj2 (status_dir _ _ _) D1'), (proj2 (status_dir _ _ _) D2'), (proj2 (status_dir _ _ _) D3). intros [= <- <-]. auto 10.
Qed.

Lemma remove_lookup f l q : remove_all f l !! q = if decide (l `prefix_of` q) then None else f !! q.
Proof.
  unfold remove_all. destruct (decide (l `prefix_of` q)) as [H|H].
  - apply map_filter_lookup_None. right. intros x _. cbn. tauto.
  - destruct (f !! q) as [n|] eqn:E; [apply map_filter_lookup_Some; auto|]. apply map_filter_lookup_None. now left.
Qed.
Lemma remove_many ls : forall f q, fold_left remove_all ls f !! q = if decide (Exists (fun l => l `prefix_of` q) ls) then None else f !! q.
Proof.
  induction ls as [|l ls IH]; intros f q; cbn [fold_left].
  - destruct (decide _) as [H|_]; [now apply Exists_nil in H|reflexivity].
  - rewrite IH, remove_lookup. destruct (decide (Exists _ ls)) as [H|H]; destruct (decide (Exists _ (l :: ls))) as [H'|H']; try reflexivity.
    + exfalso. apply H'. now apply Exists_cons_tl.
    + destruct (decide (l `prefix_of` q)); [reflexivity|]. apply Exists_cons in H' as [|]; contradiction.
    + destruct (decide (l `prefix_of` q)); [|reflexivity]. exfalso. apply H'. now apply Exists_cons_hd.
Qed.
Lemma children_in f l q : List.In q (children f l) <-> f !! q <> None /\ exists c, q = l ++ [c].
Proof.
  unfold children. rewrite filter_In. unfold is_child. rewrite bool_decide_eq_true.
  assert (M : List.In q (map fst (map_to_list f)) <-> f !! q <> None).
  { split.
    - intros H. apply in_map_iff in H as ([x n] & <- & H). apply elem_of_list_In, elem_of_map_to_list in H. cbn. congruence.
    - intros H. destruct (f !! q) as [n|] eqn:E; [|congruence]. apply in_map_iff. exists (q, n). split; [reflexivity|]. now apply elem_of_list_In, elem_of_map_to_list. }
  rewrite M. split; intros (A & B); (split; [exact A|]).
  - destruct B as (B & <-). destruct (removelast_last q B) as (x & E). now exists x.
  - destruct B as (c & ->). split; [now destruct l|apply removelast_app_one].
Qed.
Lemma ok_above f l r n : fs_ok f -> f !! (l ++ r) = Some n -> r <> [] -> f !! l = Some Dir.
Proof.
  intros K. revert n. induction r as [|x r IH] using rev_ind; intros n H Hr; [congruence|]. rewrite app_assoc in H. apply K in H.
  destruct r as [|y r]; [now rewrite app_nil_r in H|]. eapply IH; [exact H|discriminate].
Qed.
Lemma inside_child f l q : fs_ok f -> f !! q <> None -> inside l q -> exists c, List.In (l ++ [c]) (children f l) /\ l ++ [c] `prefix_of` q.
Proof.
  intros K H (c & r & ->). exists c. split; [|exists r; now rewrite <- app_assoc]. apply children_in. split; [|now exists c].
  destruct r as [|x r]; [exact H|]. destruct (f !! (l ++ c :: x :: r)) as [n|] eqn:E; [|congruence].
  replace (l ++ c :: x :: r) with ((l ++ [c]) ++ x :: r) in E by (now rewrite <- app_assoc). erewrite (ok_above f (l ++ [c]) _ _ K E) by discriminate. discriminate.
Qed.
Lemma clear_gone f cwd d l q : fs_ok f -> place f cwd (dd_etl d) = Some l -> f !! l = Some Dir -> inside l q -> clear_etl_temp f cwd d !! q = None.
Proof.
  intros K P D I. unfold clear_etl_temp. assert (S : status f cwd (dd_etl d) = Some Dir) by (unfold status; now rewrite P).
  rewrite (dir_exists _ _ _ S), (proj2 (status_dir _ _ _) S). cbn [andb]. unfold is_empty. rewrite P.
  destruct (f !! q) as [n|] eqn:E.
  - destruct (inside_child f l q K ltac:(congruence) I) as (c & H & Hp). destruct (children f l) as [|x ls] eqn:Ec; [destruct H|]. cbn [negb]. rewrite <- Ec in *.
    rewrite remove_many. destruct (decide _) as [_|N0]; [reflexivity|]. exfalso. apply N0. apply Exists_exists. eexists. split; [exact H|exact Hp].
  - destruct (negb _); [|exact E]. rewrite remove_many. destruct (decide _); auto.
Qed.
Lemma clear_else f cwd d q : (forall l, place f cwd (dd_etl d) = Some l -> ~ inside l q) -> clear_etl_temp f cwd d !! q = f !! q.
Proof.
  intros I. unfold clear_etl_temp. destruct (_ && _ && _); [|reflexivity]. destruct (place f cwd (dd_etl d)) as [l|]; [|reflexivity].
  rewrite remove_many. destruct (decide _) as [H|_]; [|reflexivity]. exfalso. apply Exists_exists in H as (x & H & Hp).
  apply children_in in H as (_ & c & ->). apply (I l eq_refl). destruct Hp as (r & ->). exists c, r. now rewrite <- app_assoc.
Qed.
Lemma clear_chaindata f cwd b v l q : place f cwd (dd_chaindata (paths_of b v)) = Some l -> q = l \/ inside l q ->
  clear_etl_temp f cwd (paths_of b v) !! q = f !! q.
Proof.
  rewrite paths_of_eq. intros P Hq. apply clear_else. cbn [dd_chaindata dd_etl] in *. intros e Pe I.
  assert (X : exists L, l = L ++ [k_erigon; k_chaindata] /\ e = L ++ [k_etl]).
  { destruct b as [|x b].
    - exists cwd. rewrite place_eq in P, Pe by discriminate. apply walk_fold in P, Pe.
      replace (comps (slashed [] ++ k_erigon ++ [47] ++ k_chaindata ++ [47])) with [k_erigon; k_chaindata; []] in P by reflexivity.
      replace (comps (slashed [] ++ k_etl ++ [47])) with [k_etl; []] in Pe by reflexivity.
      replace (start cwd (slashed [] ++ k_erigon ++ [47] ++ k_chaindata ++ [47])) with cwd in P by reflexivity.
      replace (start cwd (slashed [] ++ k_etl ++ [47])) with cwd in Pe by reflexivity. split; [rewrite P|rewrite Pe]; cbn; [|reflexivity]. now rewrite <- app_assoc.
    - destruct (slashed_ends (x :: b) ltac:(discriminate)) as (b0 & Eb). rewrite Eb in *. rewrite <- !app_assoc in *.
      rewrite place_eq in P, Pe by (destruct b0; discriminate). rewrite comps_chain in P. rewrite (comps_sub b0 k_etl) in Pe by (repeat constructor; discriminate).
      apply walk_fold in P, Pe. rewrite fold_left_app in P, Pe. rewrite (app_assoc b0 [47]) in P, Pe. rewrite !start_app in P, Pe by (destruct b0; discriminate).
      eexists. split; [rewrite P|rewrite Pe]; cbn; [|reflexivity]. now rewrite <- app_assoc. }
  destruct X as (L & -> & ->). destruct I as (c & r & E).
  assert (Y : exists r', q = L ++ k_erigon :: r').
  { destruct Hq as [->|(c' & r' & ->)]; [now eexists|]. rewrite <- app_assoc. now eexists. }
  destruct Y as (r' & ->). rewrite <- app_assoc in E. apply app_inv_head in E. discriminate.
Qed.

(** *** Temporary directories *)
Lemma alnum_range n : n < 36 -> 48 <= alnum n <= 57 \/ 97 <= alnum n <= 122.
Proof. unfold alnum. destruct (N.ltb_spec n 10); lia. Qed.
Lemma random_name (ds : list N) : length ds = 10%nat -> Forall (fun n => n < 36) ds ->
  Forall (fun c => c <> 47) (random_string ds) /\ forall l : loc, step l (random_string ds) = l ++ [random_string ds].
Proof.
  intros L F. unfold random_string. split.
  - apply Forall_map. eapply Forall_impl; [|exact F]. intros n H. cbn in H. apply alnum_range in H. lia.
  - intros l. destruct (step_cases l (map alnum ds)) as [E|[E|E]]; [| |exact E];
      destruct ds as [|a [|b [|c ds]]]; try discriminate L; cbn [map step] in *;
      destruct (alnum a) as [|p] eqn:Ea; try reflexivity; repeat (destruct p; try reflexivity);
      destruct (alnum b) as [|p]; try reflexivity; repeat (destruct p; try reflexivity).
Qed.
Lemma append_place f cwd tdp (k : bytes) : status f cwd tdp = Some Dir -> Forall (fun c => c <> 47) k -> (forall l : loc, step l k = l ++ [k]) ->
  exists l : loc, f !! l = Some Dir /\ place f cwd (append tdp k) = Some (l ++ [k]).
Proof.
  intros D N0 Sk. assert (H : tdp <> []) by (intros ->; discriminate). pose proof (status_slashed _ _ _ D) as D2. destruct (slashed_ends tdp H) as (b0 & E).
  unfold append. rewrite E in *. unfold status in D2. rewrite place_eq in D2 by (destruct b0; discriminate).
  replace (comps (b0 ++ [47])) with (comps b0 ++ [[]]) in D2 by (symmetry; apply (comps_app b0 [])). rewrite walk_app in D2.
  rewrite <- app_assoc. rewrite place_eq by (destruct b0; discriminate). cbn [app]. rewrite comps_app, (comps_name k N0), walk_app.
  replace (start cwd (b0 ++ 47 :: k)) with (start cwd (b0 ++ [47])) by (change (47 :: k) with ([47] ++ k); rewrite (app_assoc b0 [47]); symmetry; apply start_app; destruct b0; discriminate).
  destruct (walk f (start cwd (b0 ++ [47])) (comps b0)) as [l|]; [|discriminate]. cbn [walk] in *. destruct (f !! l) as [[|]|] eqn:El; try discriminate.
  exists l. split; [exact El|]. now rewrite Sk.
Qed.
Lemma try_spec tries : forall f cwd tdp rd i f' r, draws_ok rd -> status f cwd tdp = Some Dir -> try_directories f cwd tdp rd i tries = (f', r) ->
  match r with
  | Some path => exists j l, (i <= j < i + tries)%nat /\ path = append tdp (random_string (rd j)) /\ place f cwd path = Some l /\ f !! l = None
      /\ f !! removelast l = Some Dir /\ l <> [] /\ f' = <[l := Dir]> f
  | None => f' = f /\ ((exists j d, (i <= j < i + tries)%nat /\ status f cwd (append tdp (random_string (rd j))) = Some (File d))
                       \/ forall j, (i <= j < i + tries)%nat -> status f cwd (append tdp (random_string (rd j))) = Some Dir)
  end.
Proof.
  induction tries as [|n IH]; intros f cwd tdp rd i f' r R D; cbn [try_directories].
  - intros [= <- <-]. split; [reflexivity|]. right. intros j H. lia.
  - destruct (R i) as (L & F). destruct (random_name (rd i) L F) as (N0 & Sk). destruct (append_place f cwd tdp _ D N0 Sk) as (l & Dl & P).
    unfold create_directory. rewrite P. destruct (f !! (l ++ [random_string (rd i)])) as [[|d]|] eqn:E.
    + intros T. specialize (IH _ _ _ _ _ _ _ R D T). destruct r as [path|].
      * destruct IH as (j & lj & Hj & X). exists j, lj. split; [lia|exact X].
      * destruct IH as (-> & [(j & d & Hj & X)|X]); (split; [reflexivity|]).
        -- left. exists j, d. split; [lia|exact X].
        -- right. intros j Hj. destruct (decide (j = i)) as [->|Hne]; [|apply X; lia]. unfold status. now rewrite P.
    + intros [= <- <-]. split; [reflexivity|]. left. exists i, d. split; [lia|]. unfold status. now rewrite P.
    + rewrite removelast_app_one, Dl. intros [= <- <-]. exists i, (l ++ [random_string (rd i)]). rewrite removelast_app_one. repeat split; auto; [lia|now destruct l].
Qed.
Lemma temp_spec f cwd tdp rd tries f' r : draws_ok rd -> create_temporary_directory f cwd tdp rd tries = (f', r) ->
  match r with
  | Some path => exists j l, (j < tries)%nat /\ path = append tdp (random_string (rd j)) /\ place f cwd path = Some l /\ f !! l = None
      /\ f !! removelast l = Some Dir /\ l <> [] /\ f' = <[l := Dir]> f
  | None => f' = f /\ (status f cwd tdp <> Some Dir
                       \/ (exists j d, (j < tries)%nat /\ status f cwd (append tdp (random_string (rd j))) = Some (File d))
                       \/ forall j, (j < tries)%nat -> status f cwd (append tdp (random_string (rd j))) = Some Dir)
  end.
Proof.
  intros R. unfold create_temporary_directory. destruct (is_directory f cwd tdp) eqn:D.
  - apply status_dir in D. intros T. pose proof (try_spec _ _ _ _ _ _ _ _ R D T) as X. destruct r as [path|].
    + destruct X as (j & l & Hj & X). exists j, l. split; [lia|exact X].
    + destruct X as (-> & [(j & d & Hj & X)|X]); (split; [reflexivity|]); right.
      * left. exists j, d. split; [lia|exact X].
      * right. intros j Hj. apply X. lia.
  - intros [= <- <-]. split; [reflexivity|]. left. rewrite <- status_dir. congruence.
Qed.
Lemma walk_outside f g l cs : fs_ok f -> f !! l = None -> (forall q, ~ l `prefix_of` q -> g !! q = f !! q) ->
  forall at_ l', walk f at_ cs = Some l' -> walk g at_ cs = Some l'.
Proof.
  intros K N0 A. induction cs as [|c cs IH]; intros at_ l'; cbn [walk]; [auto|]. destruct (f !! at_) as [[|d]|] eqn:E; try discriminate. intros W.
  rewrite A, E; [now apply IH|]. intros (r & ->). destruct r as [|x r]; [rewrite app_nil_r in E; congruence|].
  pose proof (ok_above f l (x :: r) _ K E ltac:(discriminate)). congruence.
Qed.
Lemma temp_dropped f cwd tdp rd tries f' path g l : fs_ok f -> draws_ok rd -> create_temporary_directory f cwd tdp rd tries = (f', Some path) ->
  place f' cwd path = Some l -> (forall q, ~ (q = l \/ inside l q) -> g !! q = f' !! q) -> drop_temporary_directory g cwd path = f.
Proof.
  intros K R T P A. pose proof (temp_spec _ _ _ _ _ _ _ R T) as (j & l0 & _ & Ep & P0 & N0 & _ & _ & ->).
  assert (Hne : path <> []) by (intros ->; discriminate). rewrite place_eq in P, P0 by exact Hne. rewrite (walk_mono f _ _ _ _ (insert_subseteq f l0 Dir N0) P0) in P. injection P as <-.
  assert (A' : forall q, ~ l0 `prefix_of` q -> g !! q = f !! q).
  { intros q Hq. rewrite A.
    - rewrite lookup_insert_ne; [reflexivity|]. intros <-. apply Hq. reflexivity.
    - intros [->|(c & r & ->)]; apply Hq; [reflexivity|]. now exists (c :: r). }
  unfold drop_temporary_directory. rewrite place_eq by exact Hne. rewrite (walk_outside f g l0 _ K N0 A' _ _ P0). apply map_eq. intros q. rewrite remove_lookup.
  destruct (decide (l0 `prefix_of` q)) as [(r & ->)|H]; [|now apply A'].
  destruct (f !! (l0 ++ r)) as [n|] eqn:E; [|reflexivity]. destruct r as [|x r]; [rewrite app_nil_r in E; congruence|].
  pose proof (ok_above f l0 (x :: r) _ K E ltac:(discriminate)). congruence.
Qed.

(** *** Environments *)
Lemma open_located f cwd c f' r : open_env f cwd c = (f', r) -> c_path c <> [] ->
  exists g ok, (if negb (c_create c)
      then (f, negb (negb (exists_ f cwd (slashed (c_path c))) || negb (is_directory f cwd (slashed (c_path c))) || is_empty f cwd (slashed (c_path c)) || negb (exists_ f cwd (data_file c))
                     || negb (is_regular_file f cwd (data_file c)) || (file_size f cwd (data_file c) =? 0)))
      else if negb (exists_ f cwd (slashed (c_path c)))
           then match create_directories f cwd (slashed (c_path c)) with (f, Some made) => (f, made) | (f, None) => (f, false) end
           else (f, negb (exists_ f cwd (data_file c)))) = (g, ok) /\ f' = g
    /\ (r <> None <-> ok = true /\ no_conflict c).
Proof.
  unfold open_env. intros H Hp. fold (data_file c) in H. destruct (c_path c) as [|x p] eqn:Ep; [congruence|]. clear Hp. rewrite <- Ep in *.
  match type of H with (let '(_, _) := ?m in _) = _ => destruct m as [g ok] eqn:E end. exists g, ok. split; [reflexivity|].
  unfold no_conflict. destruct ok; cbn [negb] in H.
  2:{ injection H as <- <-. split; [reflexivity|]. split; [congruence|intros (? & _); discriminate]. }
  destruct (c_exclusive c), (c_shared c), (c_create c), (c_readonly c); cbn [andb] in H; injection H as <- <-; (split; [reflexivity|]); split; try congruence; try (intros (_ & A & B & D); exfalso; tauto);
    intros _; repeat split; try discriminate; intros (? & ?); discriminate.
Qed.
Lemma data_file_dir f cwd c n : c_path c <> [] -> status f cwd (data_file c) = Some n ->
  status f cwd (slashed (c_path c)) = Some Dir /\ is_empty f cwd (slashed (c_path c)) = false.
Proof.
  intros Hp. destruct (slashed_ends (c_path c) Hp) as (b0 & E). unfold data_file, append. rewrite E, (slashed_end (b0 ++ [47])) by now exists b0.
  unfold status, is_empty. rewrite !place_eq by (destruct b0; discriminate). rewrite <- app_assoc. cbn [app]. rewrite (comps_app b0), (comps_app b0 []), !walk_app.
  replace (start cwd (b0 ++ 47 :: k_data_file)) with (start cwd (b0 ++ [47])) by (change (47 :: k_data_file) with ([47] ++ k_data_file); rewrite (app_assoc b0 [47]); symmetry; apply start_app; destruct b0; discriminate).
  destruct (walk f (start cwd (b0 ++ [47])) (comps b0)) as [l|]; [|discriminate].
  replace (comps k_data_file) with [k_data_file] by reflexivity. cbn [walk comps]. destruct (f !! l) as [[|]|] eqn:El; try discriminate.
  replace (step l k_data_file) with (l ++ [k_data_file]) by reflexivity. replace (step l []) with l by reflexivity. intros H. split; [exact El|].
  destruct (children f l) as [|x ls] eqn:Ec; [|reflexivity]. exfalso. assert (I : List.In (l ++ [k_data_file]) (children f l)) by (apply children_in; split; [congruence|eauto]).
  rewrite Ec in I. destruct I.
Qed.
Lemma open_existing f cwd c f' r : c_create c = false -> open_env f cwd c = (f', r) ->
  f' = f /\ (r <> None <-> c_path c <> [] /\ (exists data, status f cwd (data_file c) = Some (File data) /\ data <> []) /\ no_conflict c).
Proof.
  intros Hc H. destruct (decide (c_path c = [])) as [Hp|Hp].
  { unfold open_env in H. rewrite Hp in H. injection H as <- <-. split; [reflexivity|]. split; [congruence|]. now intros (? & _). }
  destruct (open_located _ _ _ _ _ H Hp) as (g & ok & E & -> & R). rewrite Hc in E. cbn [negb] in E. injection E as <- Eo. split; [reflexivity|].
  rewrite R. clear R H. split.
  - intros (-> & N0). split; [exact Hp|]. split; [|exact N0]. apply negb_true_iff in Eo. rewrite !orb_false_iff in Eo. destruct Eo as (((((_ & _) & _) & _) & Er) & Es).
    apply negb_false_iff in Er. unfold is_regular_file, file_size in *. destruct (status f cwd (data_file c)) as [[|d]|]; try discriminate. exists d. split; [reflexivity|]. intros ->. discriminate.
  - intros (_ & (d & S & Hd) & N0). split; [|exact N0]. destruct (data_file_dir _ _ _ _ Hp S) as (D & Em). subst ok.
    rewrite (dir_exists _ _ _ D), (proj2 (status_dir _ _ _) D), Em. unfold exists_, is_regular_file, file_size. rewrite S. destruct d as [|x d]; [congruence|]. rewrite blen_cons.
    cbn [negb orb]. destruct (N.eqb_spec (1 + blen d) 0); [lia|reflexivity].
Qed.
Lemma open_new f cwd c f' r : fs_ok f -> f !! cwd = Some Dir -> c_create c = true -> open_env f cwd c = (f', r) ->
  kept f f' /\ new_only f f' (on_the_way cwd (slashed (c_path c))) /\
  (r <> None <-> c_path c <> [] /\ ~ blocked f cwd (slashed (c_path c)) /\ status f cwd (data_file c) = None /\ no_conflict c) /\
  (r <> None -> status f' cwd (slashed (c_path c)) = Some Dir).
Proof.
  intros K Dc Hc H. destruct (decide (c_path c = [])) as [Hp|Hp].
  { unfold open_env in H. rewrite Hp in H. injection H as <- <-. split; [now intros q n|]. split; [now left|]. split; [|congruence]. split; [congruence|]. now intros (? & _). }
  destruct (open_located _ _ _ _ _ H Hp) as (g & ok & E & -> & R). rewrite Hc in E. cbn [negb] in E. clear H.
  assert (Nb : forall n, status f cwd (slashed (c_path c)) = Some n -> n = Dir).
  { intros n Sn. destruct (slashed_ends (c_path c) Hp) as (b0 & Eb). rewrite Eb in Sn. unfold status in Sn. rewrite place_eq in Sn by (destruct b0; discriminate).
    replace (comps (b0 ++ [47])) with (comps b0 ++ [[]]) in Sn by (symmetry; apply (comps_app b0 [])). rewrite walk_app in Sn. destruct (walk f _ (comps b0)) as [l|]; [|discriminate].
    cbn [walk step] in Sn. destruct (f !! l) as [[]|] eqn:El; try discriminate. congruence. }
  destruct (exists_ f cwd (slashed (c_path c))) eqn:Ex; cbn [negb] in E.
  - injection E as <- <-. split; [now intros q n|]. split; [now left|].
    assert (D : status f cwd (slashed (c_path c)) = Some Dir) by (unfold exists_ in Ex; destruct (status f cwd (slashed (c_path c))) as [n|] eqn:S; [now rewrite (Nb n eq_refl)|discriminate]).
    split; [|now intros _]. rewrite R, negb_true_iff. unfold exists_. split.
    + intros (Hx & N0). split; [exact Hp|]. split; [|split; [|exact N0]].
      * intros (q & d & (a & b & Ea & ->) & Eq). unfold status in D. rewrite place_eq in D by (destruct (slashed_ends (c_path c) Hp) as (b0 & ->); destruct b0; discriminate).
        rewrite Ea, walk_app in D. destruct (walk f (start cwd (slashed (c_path c))) a) as [l|] eqn:W; [|discriminate]. pose proof (walk_fold _ _ _ _ W) as ->.
        destruct b as [|x b]; cbn [walk] in D; [congruence|]. rewrite Eq in D. discriminate.
      * destruct (status f cwd (data_file c)); [discriminate|reflexivity].
    + intros (_ & _ & S & N0). now rewrite S.
  - destruct (create_directories f cwd (slashed (c_path c))) as [f1 r1] eqn:M. destruct (create_dirs _ _ _ _ _ K M) as (A & B & C & D).
    assert (g = f1 /\ ok = match r1 with Some m => m | None => false end) as (-> & ->) by (destruct r1; now injection E as <- <-). clear E.
    split; [exact A|]. split; [exact C|].
    assert (Sd : status f cwd (data_file c) = None).
    { destruct (status f cwd (data_file c)) as [n|] eqn:S; [|reflexivity]. destruct (data_file_dir _ _ _ _ Hp S) as (D' & _). apply dir_exists in D'. congruence. }
    destruct r1 as [m|].
    + destruct D as (_ & D & F). assert (m = true) as ->.
      { destruct m; [reflexivity|]. rewrite (F eq_refl) in D. apply dir_exists in D. congruence. }
      split; [|now intros _]. rewrite R. split; [intros (_ & N0)|now intros (_ & _ & _ & N0)]. split; [exact Hp|]. split; [|split; [exact Sd|exact N0]].
      intros (q & d & (a & b & Ea & ->) & Eq). unfold status in D. rewrite place_eq in D by (destruct (slashed_ends (c_path c) Hp) as (b0 & ->); destruct b0; discriminate).
      rewrite Ea, walk_app in D. destruct (walk f1 (start cwd (slashed (c_path c))) a) as [l|] eqn:W; [|discriminate]. pose proof (walk_fold _ _ _ _ W) as ->.
      pose proof (A _ _ Eq) as Eq'. destruct b as [|x b]; cbn [walk] in D; [congruence|]. rewrite Eq' in D. discriminate.
    + destruct (D Dc) as [E|E]; [exfalso; destruct (slashed_ends (c_path c) Hp) as (b0 & Eb); rewrite Eb in E; now destruct b0|].
      split; [|intros X; apply R in X as (? & _); discriminate]. rewrite R. split; [intros (? & _); discriminate|]. intros (_ & X & _). contradiction.
Qed.
Lemma open_flags f cwd c f' o : open_env f cwd c = (f', Some o) ->
  e_path o = slashed (c_path c) /\ e_max_tables o = c_max_tables c /\ e_max_readers o = c_max_readers c
  /\ has (e_flags o) RDONLY = c_readonly c /\ has (e_flags o) EXCLUSIVE = c_exclusive c /\ has (e_flags o) ACCEDE = c_shared c
  /\ has (e_flags o) NOMETASYNC = (c_inmemory c && negb (c_readonly c)) /\ has (e_flags o) UTTERLY_NOSYNC = false /\ has (e_flags o) WRITEMAP = false
  /\ has (e_flags o) NOTLS = negb (c_exclusive c) /\ has (e_flags o) NORDAHEAD = true /\ has (e_flags o) COALESCE = false
  /\ e_geometry o = if c_shared c then None else Some (if c_inmemory c then (2 ^ 26, 2 ^ 21, 4096) else (2 ^ 41, 2 ^ 31, 4096)).
Proof.
  unfold open_env. destruct (c_path c) as [|x p] eqn:Ep; [discriminate|]. rewrite <- Ep.
  match goal with |- (let '(_, _) := ?m in _) = _ -> _ => destruct m as [g ok] end. destruct ok; [|discriminate]. cbn [negb].
  destruct (c_exclusive c && c_shared c); [discriminate|]. destruct (c_create c && c_shared c); [discriminate|]. destruct (c_create c && c_readonly c); [discriminate|].
  intros [= <- <-]. cbn [e_path e_max_tables e_max_readers e_flags e_geometry]. split; [reflexivity|]. split; [reflexivity|]. split; [reflexivity|]. unfold config_flags.
  destruct (c_readonly c), (c_inmemory c), (c_exclusive c), (c_shared c); vm_compute; repeat split; reflexivity.
Qed.
