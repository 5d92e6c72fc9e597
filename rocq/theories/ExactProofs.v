(** IntraBlockState refines the reference machine of ExactSpec, on every history. The structure is that of StateProofs;
    nothing is assumed about incarnations. *)
From stdpp Require Import gmap.
From Verif Require Import Base BaseFacts RlpModel TypesModel StateModel StateSpec ExactSpec.

Section Proofs.
  Variable keccak : bytes -> bytes.
  Variable code_of : bytes -> bytes.
  Variable db : db_reader.
  Hypothesis Hdb : db_sound code_of db.
  Hypothesis Hcempty : code_of kEmptyHash = [].

  (** Effective object, committed pair and current value, caches included. *)
  Definition load (a : N) : object :=
    match read_account db a with Some acc => mkObj (Some acc) (Some acc) | None => mkObj None None end.
  Definition objx (s : ibs) (a : N) : object := match objects s !! a with Some o => o | None => load a end.
  Definition defx (o : object) (a k : N) : N :=
    match o_initial o, o_current o with
    | Some i, Some c => if a_incarnation i =? a_incarnation c then read_storage db a (a_incarnation c) k else 0
    | _, _ => 0
    end.
  Definition origx (o : object) (st : storage) (a k : N) : N :=
    match st_committed st !! k with Some cv => cv_original cv | None => defx o a k end.
  Definition curx (o : object) (st : storage) (a k : N) : N :=
    match st_current st !! k with Some v => v | None => origx o st a k end.

  (** Per-address storage invariant. *)
  Definition st_ok (o : object) (st : storage) (a : N) : Prop :=
    (forall k v, st_current st !! k = Some v -> is_Some (st_committed st !! k) \/ defx o a k = 0)
    /\ (forall k cv, st_committed st !! k = Some cv -> cv_initial cv = defx o a k).
  (** Per-object invariant; [cs] the code cache. *)
  Definition obj_ok (cs : gmap bytes bytes) (o : object) (a : N) : Prop :=
    o_initial o = read_account db a
    /\ forall c, o_current o = Some c ->
         a_code_hash c <> kEmptyHash -> cs !! a_code_hash c = None -> read_code db (a_code_hash c) = code_of (a_code_hash c).
  Definition codes_sound (cs : gmap bytes bytes) : Prop := forall h c, cs !! h = Some c -> c = code_of h.

  Record inv (s : ibs) : Prop := {
    inv_st : forall a, st_ok (objx s a) (storage_of s a) a;
    inv_obj : forall a, obj_ok (codes s) (objx s a) a;
    inv_codes : codes_sound (codes s)
  }.

  (** [sub s s']: same xworld, [s'] may have more cached. *)
  Record sub (s s' : ibs) : Prop := {
    sub_obj : forall a, objx s' a = objx s a;
    sub_cur : forall a k, curx (objx s' a) (storage_of s' a) a k = curx (objx s a) (storage_of s a) a k;
    sub_orig : forall a k, origx (objx s' a) (storage_of s' a) a k = origx (objx s a) (storage_of s a) a k;
    sub_dom : forall a k, is_Some (st_committed (storage_of s a) !! k) -> is_Some (st_committed (storage_of s' a) !! k);
    sub_codes : codes s ⊆ codes s';
    sub_sui : self_destructs s' = self_destructs s;
    sub_touched : forall a, a <> 3 -> a ∈ touched s' <-> a ∈ touched s;
    sub_addr : accessed_addresses s' = accessed_addresses s;
    sub_keys : accessed_keys s' = accessed_keys s
  }.

  Lemma sub_refl s : sub s s.
  Proof. constructor; auto. Qed.
  Lemma sub_trans a b c : sub a b -> sub b c -> sub a c.
  Proof.
    intros [A1 A2 A3 A4 A5 A6 A7 A8 A9] [B1 B2 B3 B4 B5 B6 B7 B8 B9]. constructor.
    - intros x. now rewrite B1.
    - intros x k. now rewrite B2.
    - intros x k. now rewrite B3.
    - auto.
    - etransitivity; eassumption.
    - congruence.
    - intros x Hx. now rewrite B7, A7.
    - congruence.
    - congruence.
  Qed.

  (** ** Journal blocks: the deltas of create_contract belong together, the others stand alone. *)
  Inductive block :=
  | BOne (d : delta)
  | BPair (d1 d2 : delta).  (* d2 is the newer *)
  Definition deltas (b : block) : list delta := match b with BOne d => [d] | BPair d1 d2 => [d2; d1] end.
  Definition undo (s : ibs) (b : block) : ibs := fold_left revert_delta (deltas b) s.

  Definition target (d : delta) (a : N) : object := match d with UpdateDelta _ p => p | _ => load a end.
  (** Undoing [b] in [s] is sound. *)
  Definition valid (s : ibs) (b : block) : Prop :=
    match b with
    | BOne (CreateDelta a as d) | BOne (UpdateDelta a _ as d) =>
      obj_ok (codes s) (target d a) a /\ forall k, defx (target d a) a k = defx (objx s a) a k
    | BOne (StorageChangeDelta a k _) => is_Some (st_committed (storage_of s a) !! k) \/ defx (objx s a) a k = 0
    | BOne (TouchDelta a) => a <> 3
    | BOne (SuicideDelta _) | BOne (StorageAccessDelta _ _) | BOne (AccountAccessDelta _) => True
    | BPair (CreateDelta a as d) (StorageWipeDelta b st) | BPair (UpdateDelta a _ as d) (StorageWipeDelta b st) =>
      a = b /\ obj_ok (codes s) (target d a) a /\ st_ok (target d a) st a
    | BPair (CreateDelta a as d) (StorageCreateDelta b) | BPair (UpdateDelta a _ as d) (StorageCreateDelta b) =>
      a = b /\ obj_ok (codes s) (target d a) a
    | _ => False
    end.
  Fixpoint jinv (bl : list block) (s : ibs) : Prop :=
    match bl with [] => True | b :: t => valid s b /\ jinv t (undo s b) end.

  Lemma obj_ok_mono cs cs' o a : cs ⊆ cs' -> codes_sound cs' -> obj_ok cs o a -> obj_ok cs' o a.
  Proof.
    intros Hs Hc (Hi & H). split; [exact Hi|]. intros c Ec Hne Hnone. apply (H c Ec Hne).
    destruct (cs !! a_code_hash c) as [x|] eqn:Ex; [|reflexivity]. rewrite (lookup_weaken _ _ _ _ Ex Hs) in Hnone. discriminate.
  Qed.

  Lemma objx_set_objects s m a : objx (set_objects s m) a = match m !! a with Some o => o | None => load a end.
  Proof. reflexivity. Qed.
  Lemma storage_of_insert s m b st a : storage_of (set_storages s (<[b := st]> m)) a = if decide (a = b) then st else default storage_empty (m !! a).
  Proof. unfold storage_of. cbn. destruct (decide (a = b)) as [->|E]; [now rewrite lookup_insert|]. now rewrite lookup_insert_ne by congruence. Qed.
  Lemma storage_of_delete s m b a : storage_of (set_storages s (delete b m)) a = if decide (a = b) then storage_empty else default storage_empty (m !! a).
  Proof. unfold storage_of. cbn. destruct (decide (a = b)) as [->|E]; [now rewrite lookup_delete|]. now rewrite lookup_delete_ne by congruence. Qed.
  Lemma objx_insert s b o a : objx (set_objects s (<[b := o]> (objects s))) a = if decide (a = b) then o else objx s a.
  Proof. unfold objx. cbn. destruct (decide (a = b)) as [->|E]; [now rewrite lookup_insert|]. now rewrite lookup_insert_ne by congruence. Qed.
  Lemma objx_delete s b a : objx (set_objects s (delete b (objects s))) a = if decide (a = b) then load a else objx s a.
  Proof. unfold objx. cbn. destruct (decide (a = b)) as [->|E]; [now rewrite lookup_delete|]. now rewrite lookup_delete_ne by congruence. Qed.

  Lemma origx_def o o' st a k : defx o a k = defx o' a k -> origx o st a k = origx o' st a k.
  Proof. unfold origx. intros E. destruct (st_committed st !! k); [reflexivity|exact E]. Qed.
  Lemma curx_def o o' st a k : defx o a k = defx o' a k -> curx o st a k = curx o' st a k.
  Proof. unfold curx. intros E. destruct (st_current st !! k); [reflexivity|]. now apply origx_def. Qed.
  Lemma st_ok_def o o' st a : (forall k, defx o a k = defx o' a k) -> st_ok o st a -> st_ok o' st a.
  Proof.
    intros E (H1 & H2). split.
    - intros k v Hk. rewrite <- E. eauto.
    - intros k cv Hk. rewrite <- E. eauto.
  Qed.

  Lemma st_ok_empty o a : st_ok o storage_empty a.
  Proof. split; intros k x H; cbn in H; rewrite lookup_empty in H; discriminate. Qed.

  (** Validity and undo are monotone along [sub]. *)
  Lemma valid_sub s s' b : sub s s' -> codes_sound (codes s') -> valid s b -> valid s' b.
  Proof.
    intros [] Hc. assert (O : forall o a, obj_ok (codes s) o a -> obj_ok (codes s') o a) by (intros o a; now apply obj_ok_mono).
    destruct b as [d|d1 d2]; cbn [valid].
    - destruct d; try exact id.
      + intros (H1 & H2). split; [now apply O|]. intros k. rewrite sub_obj0. apply H2.
      + intros (H1 & H2). split; [now apply O|]. intros k. rewrite sub_obj0. apply H2.
      + intros [H|H]; [left; now apply sub_dom0|right; now rewrite sub_obj0].
    - destruct d1; try exact id; destruct d2; try exact id.
      + intros (H1 & H2 & H3). split; [exact H1|]. split; [now apply O|exact H3].
      + intros (H1 & H2). split; [exact H1|now apply O].
      + intros (H1 & H2 & H3). split; [exact H1|]. split; [now apply O|exact H3].
      + intros (H1 & H2). split; [exact H1|now apply O].
  Qed.

  Lemma undo_codes s b : codes (undo s b) = codes s.
  Proof. destruct b as [[]|[] []]; reflexivity. Qed.

  Definition pair_addr (d : delta) : N := match d with CreateDelta a | UpdateDelta a _ => a | _ => 0 end.
  Definition pair_st (d : delta) : storage := match d with StorageWipeDelta _ st => st | _ => storage_empty end.
  Lemma pair_effect s d1 d2 : valid s (BPair d1 d2) ->
    (forall x, objx (undo s (BPair d1 d2)) x = if decide (x = pair_addr d1) then target d1 (pair_addr d1) else objx s x)
    /\ (forall x, storage_of (undo s (BPair d1 d2)) x = if decide (x = pair_addr d1) then pair_st d2 else storage_of s x)
    /\ obj_ok (codes s) (target d1 (pair_addr d1)) (pair_addr d1)
    /\ st_ok (target d1 (pair_addr d1)) (pair_st d2) (pair_addr d1)
    /\ self_destructs (undo s (BPair d1 d2)) = self_destructs s /\ touched (undo s (BPair d1 d2)) = touched s
    /\ accessed_addresses (undo s (BPair d1 d2)) = accessed_addresses s /\ accessed_keys (undo s (BPair d1 d2)) = accessed_keys s.
  Proof.
    intros Hv. destruct d1; try contradiction; destruct d2; try contradiction; cbn [valid] in Hv; destruct Hv as (<- & Hv);
      cbn [pair_addr pair_st target] in *; (split; [intros x; cbn [undo deltas fold_left revert_delta]|split; [intros x; cbn [undo deltas fold_left revert_delta]|split; [|split]]]);
      rewrite ?objx_delete, ?objx_insert; try (destruct (decide (x = a)) as [->|]; reflexivity); try apply Hv; try (repeat split; reflexivity); try (apply st_ok_empty).
    all: try change (storage_of (set_objects ?s _) x) with (storage_of s x); rewrite ?storage_of_insert, ?storage_of_delete; reflexivity.
  Qed.

  Lemma undo_sub s s' b : sub s s' -> codes_sound (codes s') -> valid s b -> sub (undo s b) (undo s' b).
  Proof.
    intros Hs Hc Hv. pose proof (valid_sub s s' b Hs Hc Hv) as Hv'. destruct Hs.
    destruct b as [d|d1 d2]; cbn [valid] in *.
    - destruct d; cbn [undo deltas fold_left revert_delta]; try contradiction.
      + destruct Hv as (_ & D), Hv' as (_ & D'). cbn [target] in *. constructor; auto; cbn [codes self_destructs touched accessed_addresses accessed_keys set_objects].
        * intros x. rewrite !objx_delete. destruct (decide (x = a)); auto.
        * intros x k. rewrite !objx_delete. change (storage_of (set_objects ?s _) x) with (storage_of s x). destruct (decide (x = a)) as [->|]; [|auto].
          rewrite (curx_def _ _ (storage_of s' a) _ _ (D' k)), (curx_def _ _ (storage_of s a) _ _ (D k)). apply sub_cur0.
        * intros x k. rewrite !objx_delete. change (storage_of (set_objects ?s _) x) with (storage_of s x). destruct (decide (x = a)) as [->|]; [|auto].
          rewrite (origx_def _ _ (storage_of s' a) _ _ (D' k)), (origx_def _ _ (storage_of s a) _ _ (D k)). apply sub_orig0.
      + destruct Hv as (_ & D), Hv' as (_ & D'). cbn [target] in *. constructor; auto; cbn [codes self_destructs touched accessed_addresses accessed_keys set_objects].
        * intros x. rewrite !objx_insert. destruct (decide (x = a)); auto.
        * intros x k. rewrite !objx_insert. change (storage_of (set_objects ?s _) x) with (storage_of s x). destruct (decide (x = a)) as [->|]; [|auto].
          rewrite (curx_def _ _ (storage_of s' a) _ _ (D' k)), (curx_def _ _ (storage_of s a) _ _ (D k)). apply sub_cur0.
        * intros x k. rewrite !objx_insert. change (storage_of (set_objects ?s _) x) with (storage_of s x). destruct (decide (x = a)) as [->|]; [|auto].
          rewrite (origx_def _ _ (storage_of s' a) _ _ (D' k)), (origx_def _ _ (storage_of s a) _ _ (D k)). apply sub_orig0.
      + constructor; auto. cbn. now rewrite sub_sui0.
      + constructor; auto. cbn. intros x Hx. specialize (sub_touched0 x Hx). set_solver.
      + constructor; auto; try (change (objx (set_storages ?s _)) with (objx s)).
        * intros x j. rewrite !storage_of_insert. destruct (decide (x = a)) as [->|]; [|apply sub_cur0].
          specialize (sub_cur0 a j). specialize (sub_orig0 a j). unfold curx in *. cbn [st_current]. destruct (decide (j = k)) as [->|E]; [now rewrite !lookup_insert|].
          rewrite !lookup_insert_ne by congruence. exact sub_cur0.
        * intros x j. rewrite !storage_of_insert. destruct (decide (x = a)) as [->|]; [|apply sub_orig0]. exact (sub_orig0 a j).
        * intros x j. rewrite !storage_of_insert. destruct (decide (x = a)) as [->|]; [|apply sub_dom0]. exact (sub_dom0 a j).
      + constructor; auto. cbn. now rewrite sub_keys0.
      + constructor; auto. cbn. now rewrite sub_addr0.
    - destruct (pair_effect _ _ _ Hv) as (E1 & E2 & _ & _ & E5). destruct (pair_effect _ _ _ Hv') as (F1 & F2 & _ & _ & F5).
      assert (O : forall x, objx (undo s' (BPair d1 d2)) x = objx (undo s (BPair d1 d2)) x) by (intros x; rewrite E1, F1; destruct (decide _); auto).
      constructor; rewrite ?undo_codes; auto.
      + intros x k. rewrite O, E2, F2. rewrite E1. destruct (decide _); auto. specialize (sub_cur0 x k). rewrite sub_obj0 in sub_cur0. exact sub_cur0.
      + intros x k. rewrite O, E2, F2. rewrite E1. destruct (decide _); auto. specialize (sub_orig0 x k). rewrite sub_obj0 in sub_orig0. exact sub_orig0.
      + intros x k. rewrite E2, F2. destruct (decide _); auto.
      + destruct E5 as (-> & _), F5 as (-> & _). exact sub_sui0.
      + destruct E5 as (_ & -> & _), F5 as (_ & -> & _). exact sub_touched0.
      + destruct E5 as (_ & _ & -> & _), F5 as (_ & _ & -> & _). exact sub_addr0.
      + destruct E5 as (_ & _ & _ & ->), F5 as (_ & _ & _ & ->). exact sub_keys0.
  Qed.

  Lemma undo_inv s b : inv s -> valid s b -> inv (undo s b).
  Proof.
    intros [I1 I2 I3] Hv. destruct b as [d|d1 d2].
    - destruct d; cbn [valid undo deltas fold_left revert_delta] in *; try contradiction.
      + destruct Hv as (H1 & H2). cbn [target] in *. constructor; [| |exact I3].
        * intros x. rewrite objx_delete. change (storage_of (set_objects ?s _) x) with (storage_of s x). destruct (decide (x = a)) as [->|]; [|apply I1].
          eapply st_ok_def; [|apply I1]. intros k. now rewrite H2.
        * intros x. rewrite objx_delete. cbn [codes set_objects]. destruct (decide (x = a)) as [->|]; auto.
      + destruct Hv as (H1 & H2). cbn [target] in *. constructor; [| |exact I3].
        * intros x. rewrite objx_insert. change (storage_of (set_objects ?s _) x) with (storage_of s x). destruct (decide (x = a)) as [->|]; [|apply I1].
          eapply st_ok_def; [|apply I1]. intros k. now rewrite H2.
        * intros x. rewrite objx_insert. cbn [codes set_objects]. destruct (decide (x = a)) as [->|]; auto.
      + constructor; assumption.
      + constructor; assumption.
      + constructor; [|exact I2|exact I3]. intros x. rewrite storage_of_insert. destruct (decide (x = a)) as [->|]; [|apply I1].
        destruct (I1 a) as (A & B). split; cbn [st_current st_committed]; [|exact B]. intros j v Hj. destruct (decide (j = k)) as [->|E]; [exact Hv|].
        rewrite lookup_insert_ne in Hj by congruence. eapply A; eassumption.
      + constructor; assumption.
      + constructor; assumption.
    - destruct (pair_effect _ _ _ Hv) as (E1 & E2 & E3 & E4 & _). constructor; rewrite ?undo_codes; [| |exact I3].
      + intros x. rewrite E1, E2. destruct (decide _) as [->|]; auto.
      + intros x. rewrite E1. destruct (decide _) as [->|]; auto.
  Qed.

  Lemma jinv_sub bl : forall s s', sub s s' -> inv s -> codes_sound (codes s') -> jinv bl s -> jinv bl s'.
  Proof.
    induction bl as [|b t IH]; intros s s' Hs Hi Hc; [exact id|]. cbn. intros (Hv & Hj). split; [now apply valid_sub with s|].
    apply IH with (undo s b); [now apply undo_sub|now apply undo_inv|now rewrite undo_codes|exact Hj].
  Qed.
  Definition undo_all (s : ibs) (bl : list block) : ibs := fold_left undo bl s.
  Lemma undo_all_sub bl : forall s s', sub s s' -> inv s -> codes_sound (codes s') -> jinv bl s -> sub (undo_all s bl) (undo_all s' bl).
  Proof.
    induction bl as [|b t IH]; intros s s' Hs Hi Hc; [intros _; exact Hs|]. cbn. intros (Hv & Hj).
    apply IH; [now apply undo_sub|now apply undo_inv|now rewrite undo_codes|exact Hj].
  Qed.
  Lemma undo_all_inv bl : forall s, inv s -> jinv bl s -> inv (undo_all s bl).
  Proof. induction bl as [|b t IH]; intros s Hi; [intros _; exact Hi|]. cbn. intros (Hv & Hj). apply IH; [now apply undo_inv|exact Hj]. Qed.
  Lemma undo_all_app s a b : undo_all s (a ++ b) = undo_all (undo_all s a) b.
  Proof. apply fold_left_app. Qed.
  Lemma jinv_app a b : forall s, jinv (a ++ b) s <-> jinv a s /\ jinv b (undo_all s a).
  Proof. induction a as [|x t IH]; intros s; cbn; [tauto|]. rewrite IH. tauto. Qed.

  (** ** Extension of a state by journal blocks *)
  Definition flat (bl : list block) : list delta := flat_map deltas bl.
  Record ext (s s' : ibs) (new : list block) : Prop := {
    ext_inv : inv s';
    ext_journal : journal s' = flat new ++ journal s;
    ext_jinv : jinv new s';
    ext_sub : sub s (undo_all s' new)
  }.
  Lemma flat_app a b : flat (a ++ b) = flat a ++ flat b.
  Proof. apply flat_map_app. Qed.
  Lemma undo_all_codes bl : forall s, codes (undo_all s bl) = codes s.
  Proof. induction bl as [|b t IH]; intros s; [reflexivity|]. change (undo_all s (b :: t)) with (undo_all (undo s b) t). rewrite IH. apply undo_codes. Qed.

  Lemma ext_refl s : inv s -> ext s s [].
  Proof. intros H. constructor; [exact H|reflexivity|exact I|apply sub_refl]. Qed.
  Lemma ext_cache s s' : inv s' -> journal s' = journal s -> sub s s' -> ext s s' [].
  Proof. intros. constructor; [assumption|assumption|exact I|assumption]. Qed.
  Lemma ext_trans s1 s2 s3 new1 new2 : inv s1 -> ext s1 s2 new1 -> ext s2 s3 new2 -> ext s1 s3 (new2 ++ new1).
  Proof.
    intros Hi [I1 J1 K1 S1] [I2 J2 K2 S2]. constructor.
    - exact I2.
    - rewrite J2, J1, flat_app. now rewrite app_assoc.
    - apply jinv_app. split; [exact K2|]. eapply jinv_sub; [exact S2|exact I1| |exact K1]. rewrite undo_all_codes. apply I2.
    - rewrite undo_all_app. eapply sub_trans; [exact S1|]. eapply undo_all_sub; [exact S2|exact I1| |exact K1]. rewrite undo_all_codes. apply I2.
  Qed.
  (** The journal below stays valid. *)
  Lemma ext_below s s' new bl : inv s -> ext s s' new -> jinv bl s -> jinv (new ++ bl) s'.
  Proof.
    intros Hi [I1 J K S] Hj. apply jinv_app. split; [exact K|]. eapply jinv_sub; [exact S|exact Hi| |exact Hj]. rewrite undo_all_codes. apply I1.
  Qed.

  (** ** Objects *)
  Lemma get_object_spec s a o s1 : get_object db s a = (o, s1) ->
    (forall x, objx s1 x = objx s x) /\ storages s1 = storages s /\ codes s1 = codes s /\ journal s1 = journal s /\ self_destructs s1 = self_destructs s
    /\ logs s1 = logs s /\ touched s1 = touched s /\ refund s1 = refund s /\ accessed_addresses s1 = accessed_addresses s /\ accessed_keys s1 = accessed_keys s
    /\ match o with Some o' => o' = objx s a | None => objx s a = mkObj None None /\ load a = mkObj None None end.
  Proof.
    unfold get_object. destruct (objects s !! a) as [ob|] eqn:E.
    - intros [= <- <-]. repeat split. unfold objx. now rewrite E.
    - destruct (read_account db a) as [acc|] eqn:Er.
      + intros [= <- <-]. repeat split; [|unfold objx, load; now rewrite E, Er].
        intros x. rewrite objx_insert. destruct (decide (x = a)) as [->|]; [|reflexivity]. unfold objx, load. now rewrite E, Er.
      + intros [= <- <-]. repeat split; unfold objx, load; now rewrite ?E, Er.
  Qed.
  Lemma get_object_sub s a o s1 : get_object db s a = (o, s1) -> sub s s1.
  Proof.
    intros H. apply get_object_spec in H as (H1 & H2 & H3 & _ & H4 & _ & H5 & _ & H6 & H7 & _).
    assert (S : forall x, storage_of s1 x = storage_of s x) by (intros x; unfold storage_of; now rewrite H2).
    constructor; intros; rewrite ?H1, ?S, ?H5; auto. now rewrite H3.
  Qed.
  Lemma inv_ext_eq s s1 : (forall x, objx s1 x = objx s x) -> storages s1 = storages s -> codes s1 = codes s -> inv s -> inv s1.
  Proof.
    intros H1 H2 H3 [A B C]. assert (S : forall x, storage_of s1 x = storage_of s x) by (intros x; unfold storage_of; now rewrite H2).
    constructor.
    - intros a. rewrite H1, S. apply A.
    - intros a. rewrite H1, H3. apply B.
    - rewrite H3. exact C.
  Qed.
  Lemma get_object_ext s a o s1 : inv s -> get_object db s a = (o, s1) -> ext s s1 [].
  Proof.
    intros Hi H. pose proof (get_object_sub _ _ _ _ H). apply get_object_spec in H as (H1 & H2 & H3 & H4 & _). apply ext_cache; [|exact H4|assumption].
    now apply inv_ext_eq with s.
  Qed.

  Lemma ext_obj s a d o' : inv s -> match d with CreateDelta b | UpdateDelta b _ => b = a | _ => False end -> target d a = objx s a ->
    obj_ok (codes s) o' a -> (forall k, defx o' a k = defx (objx s a) a k) ->
    ext s (set_objects (push s d) (<[a := o']> (objects s))) [BOne d].
  Proof.
    intros Hi Hd Ht Ho Hk. set (s' := set_objects _ _).
    assert (O : forall x, objx s' x = if decide (x = a) then o' else objx s x) by (intros x; exact (objx_insert (push s d) a o' x)).
    assert (V : valid s' (BOne d)).
    { destruct d; try contradiction; subst a0; cbn [valid]; rewrite Ht; (split; [apply Hi|]); intros k; rewrite O; destruct (decide (a = a)); [|congruence|  |congruence]; symmetry; apply Hk. }
    assert (U : forall x, objx (undo s' (BOne d)) x = objx s x).
    { intros x. destruct d; try contradiction; subst a0; cbn [target] in Ht; cbn [undo deltas fold_left revert_delta].
      - rewrite objx_delete, O. destruct (decide (x = a)) as [->|]; [exact Ht|reflexivity].
      - rewrite objx_insert, O. destruct (decide (x = a)) as [->|]; [exact Ht|reflexivity]. }
    constructor.
    - constructor.
      + intros x. rewrite O. change (storage_of s' x) with (storage_of s x). destruct (decide (x = a)) as [->|]; [|apply Hi].
        eapply st_ok_def; [|apply Hi]. intros k. symmetry. apply Hk.
      + intros x. rewrite O. change (codes s') with (codes s). destruct (decide (x = a)) as [->|]; [assumption|apply Hi].
      + apply Hi.
    - reflexivity.
    - split; [exact V|exact I].
    - cbn [undo_all fold_left]. assert (S : forall x, storage_of (undo s' (BOne d)) x = storage_of s x) by (intros x; destruct d; try contradiction; reflexivity).
      constructor; intros; rewrite ?U, ?S; auto; destruct d; try contradiction; try reflexivity; auto.
  Qed.

  Definition rest (s : ibs) := (storages s, codes s, self_destructs s, logs s, touched s, refund s, accessed_addresses s, accessed_keys s).
  Lemma get_object_rest s a o s1 : get_object db s a = (o, s1) -> rest s1 = rest s.
  Proof. intros H. apply get_object_spec in H as (_ & H2 & H3 & _ & H4 & H5 & H6 & H7 & H8 & H9 & _). unfold rest. congruence. Qed.
  Lemma rest_storage s s1 x : rest s1 = rest s -> storage_of s1 x = storage_of s x.
  Proof. unfold rest, storage_of. intros [= -> _ _ _ _ _ _ _]. reflexivity. Qed.

  Lemma defx_fresh o a k : defx (mkObj o (Some account_default)) a k = 0.
  Proof.
    unfold defx. cbn [o_initial o_current]. destruct o as [i|]; [|reflexivity]. destruct (a_incarnation i =? a_incarnation account_default); [|reflexivity].
    cbn. apply Hdb.
  Qed.
  Lemma default_ok cs a : obj_ok cs (mkObj (read_account db a) (Some account_default)) a.
  Proof.
    split; [reflexivity|]. cbn [o_current]. intros c [= <-]. cbn [a_code_hash account_default a_incarnation].
    congruence.
  Qed.
  Lemma defx_none i a k : defx (mkObj i None) a k = 0.
  Proof. unfold defx. cbn. destruct i; reflexivity. Qed.

  Lemma get_or_create_ext s a o c s' : inv s -> get_or_create_object db s a = (o, c, s') ->
    exists new, ext s s' new /\ o = mkObj (o_initial (objx s a)) (Some c) /\ c = default account_default (o_current (objx s a))
      /\ (forall x, objx s' x = if decide (x = a) then o else objx s x) /\ rest s' = rest s.
  Proof.
    intros Hi. unfold get_or_create_object. destruct (get_object db s a) as [p s1] eqn:E. pose proof (get_object_ext _ _ _ _ Hi E) as X.
    pose proof (get_object_rest _ _ _ _ E) as Hr. apply get_object_spec in E as (H1 & _ & H3 & _ & _ & _ & _ & _ & _ & _ & H).
    pose proof (inv_obj _ Hi a) as (Hini & _).
    destruct p as [p|].
    - subst p. destruct (o_current (objx s a)) as [c0|] eqn:Ec.
      + intros [= <- <- <-]. exists []. split; [exact X|]. split; [destruct (objx s a); cbn in *; congruence|]. split; [reflexivity|]. split; [|exact Hr].
        intros x. rewrite H1. destruct (decide (x = a)) as [->|]; reflexivity.
      + intros [= <- <- <-]. exists ([BOne (UpdateDelta a (objx s a))] ++ []). split; [|split; [reflexivity|split; [reflexivity|split]]].
        * eapply ext_trans; [exact Hi|exact X|]. apply ext_obj; [apply X|reflexivity|cbn; now rewrite H1| |].
          -- rewrite Hini. apply default_ok.
          -- intros k. rewrite defx_fresh, H1. unfold defx. rewrite Ec. now destruct (o_initial (objx s a)).
        * intros x. etransitivity; [apply (objx_insert (push s1 _) a _ x)|]. destruct (decide (x = a)); [reflexivity|]. exact (H1 x).
        * exact Hr.
    - destruct H as (H & Hl). rewrite H in *. cbn [o_initial o_current default] in *.
      intros [= <- <- <-]. exists ([BOne (CreateDelta a)] ++ []). split; [|split; [reflexivity|split; [reflexivity|split]]].
      + eapply ext_trans; [exact Hi|exact X|]. apply ext_obj; [apply X|reflexivity|cbn; now rewrite H1, H| |].
        * rewrite Hini. apply default_ok.
        * intros k. rewrite defx_fresh, H1, H. reflexivity.
      + intros x. etransitivity; [apply (objx_insert (push s1 _) a _ x)|]. destruct (decide (x = a)); [reflexivity|]. exact (H1 x).
      + exact Hr.
  Qed.

  Lemma update_current_ext s a f : inv s -> (forall c, a_incarnation (f c) = a_incarnation c) ->
    (forall o c, obj_ok (codes s) (mkObj o (Some c)) a -> obj_ok (codes s) (mkObj o (Some (f c))) a) ->
    exists new, ext s (update_current db s a f) new
      /\ (forall x, objx (update_current db s a f) x = if decide (x = a) then mkObj (o_initial (objx s a)) (Some (f (default account_default (o_current (objx s a))))) else objx s x)
      /\ rest (update_current db s a f) = rest s.
  Proof.
    intros Hi Hf Ho. unfold update_current. destruct (get_or_create_object db s a) as [[o c] s1] eqn:E.
    destruct (get_or_create_ext _ _ _ _ _ Hi E) as (new & X & Eo & Ec & H & Hr). exists ([BOne (UpdateDelta a o)] ++ new).
    assert (Oa : objx s1 a = o) by (rewrite H; destruct (decide (a = a)); congruence).
    assert (Hc : codes s1 = codes s) by (unfold rest in Hr; congruence).
    split; [|split].
    - eapply ext_trans; [exact Hi|exact X|]. apply (ext_obj s1 a (UpdateDelta a o)); [apply X|reflexivity|cbn; congruence| |].
      + rewrite Hc, Eo. cbn [o_initial]. apply Ho. rewrite <- Hc. pose proof (inv_obj _ (ext_inv _ _ _ X) a) as Q. rewrite Oa, Eo in Q. exact Q.
      + intros k. rewrite Oa, Eo. unfold defx. cbn [o_initial o_current]. now rewrite Hf.
    - intros x. etransitivity; [apply (objx_insert (push s1 _) a _ x)|]. destruct (decide (x = a)) as [->|N]; [now rewrite Eo, Ec|].
      change (objx (push s1 ?d) x) with (objx s1 x). rewrite H. now destruct (decide (x = a)).
    - exact Hr.
  Qed.

  (** ** Substate *)
  Ltac same_inv Hi := apply inv_ext_eq with (4 := Hi); reflexivity.
  Lemma touch_ext s a : inv s -> exists new, ext s (touch s a) new.
  Proof.
    intros Hi. unfold touch. destruct (decide (a ∈ touched s)) as [E|E].
    - rewrite bool_decide_false by (intros X; exact (X E)). cbn [andb]. exists []. apply ext_cache; [same_inv Hi|reflexivity|].
      constructor; auto. cbn. set_solver.
    - rewrite bool_decide_true by exact E. cbn [andb]. destruct (N.eqb_spec a kRipemdAddress) as [->|E3]; cbn [negb].
      + exists []. apply ext_cache; [same_inv Hi|reflexivity|]. constructor; auto. cbn. unfold kRipemdAddress. set_solver.
      + exists [BOne (TouchDelta a)]. constructor; [same_inv Hi|reflexivity|split; [exact E3|exact I]|]. constructor; auto. cbn. set_solver.
  Qed.
  Lemma suicide_ext s a : inv s -> exists new, ext s (record_suicide s a) new.
  Proof.
    intros Hi. unfold record_suicide. destruct (decide (a ∈ self_destructs s)) as [E|E].
    - rewrite bool_decide_false by (intros X; exact (X E)). exists []. apply ext_cache; [same_inv Hi|reflexivity|].
      constructor; auto. cbn. set_solver.
    - rewrite bool_decide_true by exact E. exists [BOne (SuicideDelta a)]. constructor; [same_inv Hi|reflexivity|split; exact I|].
      constructor; auto. cbn. set_solver.
  Qed.
  Lemma access_account_ext s a : inv s -> exists new, ext s (snd (access_account s a)) new.
  Proof.
    intros Hi. unfold access_account. cbn [snd]. destruct (decide (a ∈ accessed_addresses s)) as [E|E].
    - rewrite bool_decide_false by (intros X; exact (X E)). exists []. apply ext_cache; [same_inv Hi|reflexivity|].
      constructor; auto. cbn. set_solver.
    - rewrite bool_decide_true by exact E. exists [BOne (AccountAccessDelta a)]. constructor; [same_inv Hi|reflexivity|split; exact I|].
      constructor; auto. cbn. set_solver.
  Qed.
  Lemma access_storage_ext s a k : inv s -> exists new, ext s (snd (access_storage s a k)) new.
  Proof.
    intros Hi. unfold access_storage. cbn [snd]. destruct (decide ((a, k) ∈ accessed_keys s)) as [E|E].
    - rewrite bool_decide_false by (intros X; exact (X E)). exists []. apply ext_cache; [same_inv Hi|reflexivity|].
      constructor; auto. cbn. set_solver.
    - rewrite bool_decide_true by exact E. exists [BOne (StorageAccessDelta a k)]. constructor; [same_inv Hi|reflexivity|split; exact I|].
      constructor; auto. cbn. set_solver.
  Qed.

  (** ** Contract creation *)
  Definition create_incarnation (o : object) (a : N) : N :=
    let p := match o_current o with Some c => a_incarnation c | None => match o_initial o with Some i => a_incarnation i | None => 0 end end in
    ((if p =? 0 then previous_incarnation db a else p) + 1) mod 2 ^ 64.
  Definition created (o : object) (a : N) : object :=
    mkObj (o_initial o) (Some (mkAccount 0 (match o_current o with Some c => a_balance c | None => 0 end) kEmptyHash (create_incarnation o a))).
  Lemma created_ok cs o a : obj_ok cs o a -> obj_ok cs (created o a) a.
  Proof. intros (Hi & _). split; [exact Hi|]. unfold created. cbn [o_current]. intros c [= <-]. cbn [a_code_hash]. congruence. Qed.

  Lemma create_ext s a : inv s -> exists new, ext s (create_contract db s a) new
    /\ (forall x, objx (create_contract db s a) x = if decide (x = a) then created (objx s a) a else objx s x)
    /\ (forall x, storage_of (create_contract db s a) x = if decide (x = a) then storage_empty else storage_of s x)
    /\ codes (create_contract db s a) = codes s /\ self_destructs (create_contract db s a) = self_destructs s /\ logs (create_contract db s a) = logs s
    /\ touched (create_contract db s a) = touched s /\ refund (create_contract db s a) = refund s
    /\ accessed_addresses (create_contract db s a) = accessed_addresses s /\ accessed_keys (create_contract db s a) = accessed_keys s.
  Proof.
    intros Hi. unfold create_contract. destruct (get_object db s a) as [p s1] eqn:E. pose proof (get_object_ext _ _ _ _ Hi E) as X.
    pose proof (get_object_rest _ _ _ _ E) as Hrest. apply get_object_spec in E as (H1 & _ & _ & _ & _ & _ & _ & _ & _ & _ & H).
    set (d1 := match p with Some p => UpdateDelta a p | None => CreateDelta a end).
    assert (Ed : match p with Some p => push s1 (UpdateDelta a p) | None => push s1 (CreateDelta a) end = push s1 d1) by (now destruct p).
    rewrite Ed. clear Ed.
    assert (Ht : target d1 a = objx s1 a) by (rewrite H1; destruct p; cbn; [assumption|destruct H; congruence]).
    match goal with |- context [mkObj ?x (Some ?y)] => assert (Ec : mkObj x (Some y) = created (objx s a) a) end.
    { unfold created, create_incarnation. destruct p as [p|]; [subst p; reflexivity|]. destruct H as (-> & _). reflexivity. }
    rewrite Ec. clear Ec. set (o' := created (objx s a) a).
    change (storages (set_objects (push s1 d1) ?m)) with (storages s1). change (objects (push s1 d1)) with (objects s1).
    assert (Ho : forall x, objx (set_objects (push s1 d1) (<[a := o']> (objects s1))) x = if decide (x = a) then o' else objx s x).
    { intros x. etransitivity; [apply (objx_insert (push s1 d1) a o' x)|]. destruct (decide (x = a)); [reflexivity|exact (H1 x)]. }
    assert (Hd1 : match d1 with CreateDelta b | UpdateDelta b _ => b = a | _ => False end) by (unfold d1; now destruct p).
    assert (Hpa : pair_addr d1 = a) by (unfold d1; now destruct p).
    pose proof (inv_obj _ Hi a) as Hobj. pose proof (created_ok _ _ _ Hobj) as Hc.
    assert (Hobj1 : obj_ok (codes s1) (target d1 a) a).
    { rewrite Ht, H1. unfold rest in Hrest. replace (codes s1) with (codes s) by congruence. exact Hobj. }
    pose proof (inv_st _ (ext_inv _ _ _ X) a) as Hst1.
    assert (G : forall d2 sts, (forall x, default storage_empty (sts !! x) = if decide (x = a) then storage_empty else storage_of s x) ->
      let s' := set_storages (push (set_objects (push s1 d1) (<[a := o']> (objects s1))) d2) sts in
      valid s' (BPair d1 d2) -> pair_st d2 = storage_of s a ->
      ext s s' ([BPair d1 d2] ++ []) /\ (forall x, objx s' x = if decide (x = a) then o' else objx s x)
      /\ (forall x, storage_of s' x = if decide (x = a) then storage_empty else storage_of s x)).
    { intros d2 sts Hsts s' Hv Hpst. split; [|split; [exact Ho|exact Hsts]].
      eapply ext_trans; [exact Hi|exact X|].
      assert (Ov : forall x, objx s' x = if decide (x = a) then o' else objx s x) by exact Ho.
      assert (Sv : forall x, storage_of s' x = if decide (x = a) then storage_empty else storage_of s x) by exact Hsts.
      destruct (pair_effect _ _ _ Hv) as (E1 & E2 & _ & _ & E3 & E4 & E5 & E6). rewrite Hpa in E1, E2.
      assert (O2 : forall x, objx (undo s' (BPair d1 d2)) x = objx s1 x).
      { intros x. rewrite E1. destruct (decide (x = a)) as [->|Nx]; [exact Ht|]. rewrite Ov. rewrite H1. destruct (decide (x = a)); [contradiction|reflexivity]. }
      assert (S2 : forall x, storage_of (undo s' (BPair d1 d2)) x = storage_of s1 x).
      { intros x. rewrite E2, (rest_storage s s1) by exact Hrest. destruct (decide (x = a)) as [->|Nx]; [exact Hpst|]. rewrite Sv. destruct (decide (x = a)); [contradiction|reflexivity]. }
      constructor.
      - assert (Ecs : codes s' = codes s) by (change (codes s') with (codes s1); unfold rest in Hrest; congruence). constructor.
        + intros x. rewrite Ov, Sv. destruct (decide (x = a)) as [->|]; [apply st_ok_empty|apply Hi].
        + intros x. rewrite Ov, Ecs. destruct (decide (x = a)) as [->|]; [exact Hc|]. apply Hi.
        + rewrite Ecs. apply Hi.
      - cbn [flat flat_map app deltas]. reflexivity.
      - split; [exact Hv|exact I].
      - cbn [undo_all fold_left]. constructor; rewrite ?undo_codes; auto.
        + intros x k. now rewrite O2, S2.
        + intros x k. now rewrite O2, S2.
        + intros x k. now rewrite S2.
        + intros x Hx. rewrite E4. reflexivity. }
    destruct (storages s1 !! a) as [st|] eqn:Es.
    - set (d2 := StorageWipeDelta a st). exists ([BPair d1 d2] ++ []).
      assert (Est : storage_of s a = st) by (rewrite <- (rest_storage s s1) by exact Hrest; unfold storage_of; now rewrite Es).
      destruct (G d2 (delete a (storages s1))) as (A & B & C).
      + intros x. destruct (decide (x = a)) as [->|Nx]; [now rewrite lookup_delete|]. rewrite lookup_delete_ne by congruence. rewrite <- (rest_storage s s1) by exact Hrest. reflexivity.
      + unfold d2. rewrite (rest_storage s s1) in Hst1 by exact Hrest. rewrite Est, <- Ht in Hst1.
        clear - Hobj1 Hst1 Hd1. unfold d1 in *; destruct p; cbn [valid] in *; (split; [reflexivity|split; [exact Hobj1|exact Hst1]]).
      + symmetry. exact Est.
      + split; [exact A|]. split; [exact B|]. split; [exact C|]. unfold rest in Hrest. cbn. repeat split; congruence.
    - set (d2 := StorageCreateDelta a). exists ([BPair d1 d2] ++ []).
      assert (Est : storage_of s a = storage_empty) by (rewrite <- (rest_storage s s1) by exact Hrest; unfold storage_of; now rewrite Es).
      destruct (G d2 (storages s1)) as (A & B & C).
      + intros x. rewrite <- (rest_storage s s1) by exact Hrest. unfold storage_of. destruct (decide (x = a)) as [->|Nx]; [now rewrite Es|reflexivity].
      + unfold d2. clear - Hobj1 Hd1. unfold d1 in *; destruct p; cbn [valid] in *; (split; [reflexivity|exact Hobj1]).
      + symmetry. exact Est.
      + split; [exact A|]. split; [exact B|]. split; [exact C|]. unfold rest in Hrest. cbn. repeat split; congruence.
  Qed.

  (** ** Storage *)
  Definition rest2 (s : ibs) := (codes s, self_destructs s, logs s, touched s, refund s, accessed_addresses s, accessed_keys s).
  Lemma rest_rest2 s s' : rest s' = rest s -> rest2 s' = rest2 s.
  Proof. unfold rest, rest2. intros [= _ -> -> -> -> -> -> ->]. reflexivity. Qed.

  (** Replacing the storage of [a] by one with the same values and at least the same committed keys. *)
  Lemma set_st_sub s a st : inv s -> st_ok (objx s a) st a -> (forall k, curx (objx s a) st a k = curx (objx s a) (storage_of s a) a k) ->
    (forall k, origx (objx s a) st a k = origx (objx s a) (storage_of s a) a k) ->
    (forall k, is_Some (st_committed (storage_of s a) !! k) -> is_Some (st_committed st !! k)) ->
    ext s (set_storages s (<[a := st]> (storages s))) [].
  Proof.
    intros Hi Hok Hc Ho Hd. apply ext_cache; [|reflexivity|].
    - constructor; [|apply Hi|apply Hi]. intros x. rewrite storage_of_insert. change (objx (set_storages s _) x) with (objx s x).
      destruct (decide (x = a)) as [->|]; [exact Hok|apply Hi].
    - constructor; auto; try (intros x k; rewrite storage_of_insert; change (objx (set_storages s _) x) with (objx s x); destruct (decide (x = a)) as [->|]; auto; fail).
  Qed.

  Lemma get_storage_ext s a k original v s' : inv s -> get_storage db s a k original = (v, s') ->
    ext s s' [] /\ (forall x, objx s' x = objx s x) /\ rest2 s' = rest2 s /\
    v = (match o_current (objx s a) with Some _ => if original then origx (objx s a) (storage_of s a) a k else curx (objx s a) (storage_of s a) a k | None => 0 end) /\
    (o_current (objx s a) <> None -> original = false -> is_Some (st_committed (storage_of s' a) !! k) \/ defx (objx s a) a k = 0).
  Proof.
    intros Hi. unfold get_storage. destruct (get_object db s a) as [p s1] eqn:E. pose proof (get_object_ext _ _ _ _ Hi E) as X.
    pose proof (get_object_rest _ _ _ _ E) as Hrest. apply get_object_spec in E as (H1 & _ & _ & _ & _ & _ & _ & _ & _ & _ & H).
    destruct p as [p|].
    2:{ intros [= <- <-]. destruct H as (H & _). rewrite H. cbn [o_current]. split; [exact X|split; [exact H1|split; [now apply rest_rest2|split; [reflexivity|congruence]]]]. }
    subst p. destruct (o_current (objx s a)) as [c|] eqn:Ec.
    2:{ intros [= <- <-]. split; [exact X|split; [exact H1|split; [now apply rest_rest2|split; [reflexivity|congruence]]]]. }
    set (st := storage_of s1 a). assert (Est : st = storage_of s a) by (apply rest_storage; exact Hrest).
    set (s2 := set_storages s1 (<[a := st]> (storages s1))).
    assert (X2 : ext s s2 []).
    { change (@nil block) with ([] ++ @nil block). eapply ext_trans; [exact Hi|exact X|]. apply set_st_sub; [apply X|apply X|reflexivity|reflexivity|auto]. }
    assert (R2 : rest2 s2 = rest2 s) by (apply rest_rest2 in Hrest; exact Hrest).
    assert (O2 : forall x, objx s2 x = objx s x) by exact H1.
    assert (S2 : storage_of s2 a = st) by (unfold s2; rewrite storage_of_insert; now destruct (decide (a = a))).
    pose proof (inv_st _ Hi a) as (Hok1 & Hok2).
    assert (Hval : forall r, r = (if original then None else st_current st !! k) -> (if original then origx (objx s a) (storage_of s a) a k else curx (objx s a) (storage_of s a) a k) =
        match r with Some v => v | None => origx (objx s a) (storage_of s a) a k end).
    { intros r ->. destruct original; [reflexivity|]. unfold curx. now rewrite <- Est. }
    destruct (if original then None else st_current st !! k) as [v0|] eqn:Ev.
    { intros [= <- <-]. split; [exact X2|]. split; [exact O2|]. split; [exact R2|]. split; [now rewrite (Hval _ eq_refl)|]. intros _ ->. rewrite S2, Est.
      rewrite Est in Ev. eapply Hok1; exact Ev. }
    rewrite (Hval _ eq_refl). unfold origx. rewrite <- Est. destruct (st_committed st !! k) as [cv|] eqn:Ecv.
    { intros [= <- <-]. split; [exact X2|]. split; [exact O2|]. split; [exact R2|]. split; [reflexivity|]. intros _ _. left. rewrite S2, Ecv. now eexists. }
    destruct (match o_initial (objx s a) with Some i => negb (a_incarnation i =? a_incarnation c) | None => true end) eqn:Ei.
    { intros [= <- <-]. assert (D : defx (objx s a) a k = 0).
      { unfold defx. rewrite Ec. destruct (o_initial (objx s a)) as [i|]; [|reflexivity]. destruct (a_incarnation i =? a_incarnation c); [discriminate|reflexivity]. }
      split; [exact X2|]. split; [exact O2|]. split; [exact R2|]. split; [now rewrite D|]. intros _ _. right. exact D. }
    intros [= <- <-].
    assert (D : defx (objx s a) a k = read_storage db a (a_incarnation c) k).
    { unfold defx. rewrite Ec. destruct (o_initial (objx s a)) as [i|]; [|discriminate]. destruct (a_incarnation i =? a_incarnation c); [reflexivity|discriminate]. }
    split; [|split; [exact O2|split; [exact R2|split; [now rewrite D|]]]].
    - change (@nil block) with ([] ++ @nil block). eapply ext_trans; [exact Hi|exact X2|]. apply set_st_sub; [apply X2| | | |]; rewrite ?O2, ?S2.
      + split; cbn [st_current st_committed].
        * intros j w Hj. rewrite Est in Hj. destruct (Hok1 j w Hj) as [P|P]; [left|right; exact P]. rewrite <- Est in P. destruct (decide (j = k)) as [->|N]; [rewrite lookup_insert; now eexists|].
          now rewrite lookup_insert_ne by congruence.
        * intros j w. destruct (decide (j = k)) as [->|N]; [rewrite lookup_insert; intros [= <-]; cbn; now rewrite D|]. rewrite lookup_insert_ne by congruence. rewrite Est. apply Hok2.
      + intros j. unfold curx, origx. cbn [st_current st_committed]. destruct (decide (j = k)) as [->|N].
        * rewrite lookup_insert, Ecv, D. reflexivity.
        * now rewrite lookup_insert_ne by congruence.
      + intros j. unfold origx. cbn [st_current st_committed]. destruct (decide (j = k)) as [->|N].
        * rewrite lookup_insert, Ecv, D. reflexivity.
        * now rewrite lookup_insert_ne by congruence.
      + intros j Hj. cbn [st_committed]. destruct (decide (j = k)) as [->|N]; [rewrite lookup_insert; now eexists|]. now rewrite lookup_insert_ne by congruence.
    - intros _ _. left. rewrite storage_of_insert. destruct (decide (a = a)); [|congruence]. cbn [st_committed]. rewrite lookup_insert. now eexists.
  Qed.

  Lemma set_storage_ext s a k v : inv s -> o_current (objx s a) <> None -> exists new, ext s (set_storage db s a k v) new
    /\ (forall x, objx (set_storage db s a k v) x = objx s x) /\ rest2 (set_storage db s a k v) = rest2 s
    /\ (forall x j, curx (objx s x) (storage_of (set_storage db s a k v) x) x j = if decide (x = a /\ j = k) then v else curx (objx s x) (storage_of s x) x j)
    /\ (forall x j, origx (objx s x) (storage_of (set_storage db s a k v) x) x j = origx (objx s x) (storage_of s x) x j).
  Proof.
    intros Hi Hc. unfold set_storage, get_current_storage. destruct (get_storage db s a k false) as [prev s1] eqn:E.
    destruct (get_storage_ext _ _ _ _ _ _ Hi E) as (X & H1 & Hr & Hv & Hp). specialize (Hp Hc eq_refl).
    destruct (o_current (objx s a)) as [c|] eqn:Ec; [|congruence].
    assert (S1c : forall x j, curx (objx s x) (storage_of s1 x) x j = curx (objx s x) (storage_of s x) x j).
    { intros x j. rewrite <- (sub_cur _ _ (ext_sub _ _ _ X) x j). cbn [undo_all fold_left]. now rewrite H1. }
    assert (S1o : forall x j, origx (objx s x) (storage_of s1 x) x j = origx (objx s x) (storage_of s x) x j).
    { intros x j. rewrite <- (sub_orig _ _ (ext_sub _ _ _ X) x j). cbn [undo_all fold_left]. now rewrite H1. }
    destruct (N.eqb_spec prev v) as [<-|Nv].
    { exists []. split; [exact X|]. split; [exact H1|]. split; [exact Hr|]. split; [|exact S1o]. intros x j. rewrite S1c. destruct (decide (x = a /\ j = k)) as [[-> ->]|]; congruence. }
    set (st := storage_of s1 a). set (s2 := push (set_storages s1 _) _).
    assert (S2 : forall x, storage_of s2 x = if decide (x = a) then mkSt (st_committed st) (<[k := v]> (st_current st)) else storage_of s1 x) by (intros x; apply storage_of_insert).
    assert (O2 : forall x, objx s2 x = objx s1 x) by reflexivity.
    exists ([BOne (StorageChangeDelta a k prev)] ++ []). split; [|split; [exact H1|split; [exact Hr|split]]].
    - eapply ext_trans; [exact Hi|exact X|].
      assert (V : valid s2 (BOne (StorageChangeDelta a k prev))).
      { cbn [valid]. rewrite S2, O2, H1. destruct (decide (a = a)); [|congruence]. exact Hp. }
      pose proof (inv_st _ (ext_inv _ _ _ X)) as K.
      constructor; [ |reflexivity|split; [exact V|exact I]|].
      + constructor; [|apply X|apply X]. intros x. rewrite S2, O2. destruct (decide (x = a)) as [->|]; [|apply K].
        destruct (K a) as (K1 & K2). split; cbn [st_committed st_current]; [|exact K2]. intros j w Hj. destruct (decide (j = k)) as [->|Nj]; [rewrite H1; exact Hp|].
        rewrite lookup_insert_ne in Hj by congruence. eapply K1; exact Hj.
      + cbn [undo_all fold_left undo deltas revert_delta].
        assert (S3 : forall x, storage_of (revert_delta s2 (StorageChangeDelta a k prev)) x = if decide (x = a) then mkSt (st_committed st) (<[k := prev]> (st_current st)) else storage_of s1 x).
        { intros x. cbn [revert_delta]. rewrite storage_of_insert. destruct (decide (x = a)) as [->|Nx].
          - rewrite S2. destruct (decide (a = a)); [|congruence]. cbn [st_committed st_current]. now rewrite insert_insert.
          - change (storage_of s2 x = storage_of s1 x). rewrite S2. destruct (decide (x = a)); [congruence|reflexivity]. }
        constructor; auto; cbn [revert_delta] in S3.
        * intros x j. change (objx (set_storages s2 _) x) with (objx s1 x). rewrite S3. destruct (decide (x = a)) as [->|]; [|reflexivity].
          unfold curx at 1. cbn [st_current st_committed]. destruct (decide (j = k)) as [->|Nj].
          -- rewrite lookup_insert, H1, S1c. exact Hv.
          -- rewrite lookup_insert_ne by congruence. reflexivity.
        * intros x j. change (objx (set_storages s2 _) x) with (objx s1 x). rewrite S3. destruct (decide (x = a)) as [->|]; reflexivity.
        * intros x j. rewrite S3. destruct (decide (x = a)) as [->|]; auto.
    - intros x j. rewrite S2. destruct (decide (x = a)) as [->|Nx].
      + unfold curx at 1. cbn [st_current]. destruct (decide (j = k)) as [->|Nj].
        * rewrite lookup_insert. destruct (decide (a = a /\ k = k)); [reflexivity|tauto].
        * rewrite lookup_insert_ne by congruence. destruct (decide (a = a /\ j = k)); [tauto|]. rewrite <- S1c. reflexivity.
      + rewrite S1c. destruct (decide (x = a /\ j = k)); [tauto|reflexivity].
    - intros x j. rewrite S2. destruct (decide (x = a)) as [->|Nx]; [|apply S1o]. rewrite <- S1o. reflexivity.
  Qed.

  (** ** Code *)
  Lemma codes_ext s C : inv s -> codes s ⊆ C -> codes_sound C -> ext s (set_codes s C) [].
  Proof.
    intros Hi Hs Hc. apply ext_cache; [|reflexivity|constructor; auto]. constructor; [apply Hi| |exact Hc].
    intros a. eapply obj_ok_mono; [exact Hs|exact Hc|]. apply (inv_obj _ Hi a).
  Qed.
  Definition rest3 (s : ibs) := (storages s, self_destructs s, logs s, touched s, refund s, accessed_addresses s, accessed_keys s).
  Lemma rest_rest3 s s' : rest s' = rest s -> rest3 s' = rest3 s.
  Proof. unfold rest, rest3. intros [= -> _ -> -> -> -> -> ->]. reflexivity. Qed.

  Lemma get_code_ext s a v s' : inv s -> get_code db s a = (v, s') ->
    ext s s' [] /\ (forall x, objx s' x = objx s x) /\ rest3 s' = rest3 s
    /\ v = match o_current (objx s a) with Some c => code_of (a_code_hash c) | None => [] end.
  Proof.
    intros Hi. unfold get_code. destruct (get_object db s a) as [p s1] eqn:E. pose proof (get_object_ext _ _ _ _ Hi E) as X.
    pose proof (get_object_rest _ _ _ _ E) as Hrest. apply get_object_spec in E as (H1 & _ & _ & _ & _ & _ & _ & _ & _ & _ & H).
    assert (Hcur : current_of p = o_current (objx s a)) by (destruct p; cbn; [now subst|destruct H as (-> & _); reflexivity]). rewrite Hcur.
    apply rest_rest3 in Hrest. destruct (o_current (objx s a)) as [c|] eqn:Ec; [|now intros [= <- <-]].
    destruct (bytes_eqb (a_code_hash c) kEmptyHash) eqn:E; [apply bytes_eqb_eq in E; intros [= <- <-]; now rewrite E, Hcempty|]; assert (E0 : a_code_hash c <> kEmptyHash) by (intros E0; apply bytes_eqb_eq in E0; congruence).
    destruct (codes s1 !! a_code_hash c) as [code|] eqn:Eh.
    { intros [= <- <-]. split; [exact X|]. split; [exact H1|]. split; [exact Hrest|]. eapply (inv_codes _ (ext_inv _ _ _ X)); exact Eh. }
    intros [= <- <-]. pose proof (inv_obj _ (ext_inv _ _ _ X) a) as (_ & O). rewrite H1 in O. pose proof (O c Ec E0) as O2.
    split; [|split; [exact H1|split; [exact Hrest|now apply O2]]].
    change (@nil block) with ([] ++ @nil block). eapply ext_trans; [exact Hi|exact X|]. apply codes_ext; [apply X| |].
    - apply insert_subseteq. exact Eh.
    - intros h x. destruct (decide (h = a_code_hash c)) as [->|N]; [rewrite lookup_insert; intros [= <-]; now apply O2|].
      rewrite lookup_insert_ne by congruence. apply (inv_codes _ (ext_inv _ _ _ X)).
  Qed.

  Lemma update_current_codes s a f C : set_codes (update_current db s a f) C = update_current db (set_codes s C) a f.
  Proof.
    unfold update_current, get_or_create_object, get_object. change (objects (set_codes s C)) with (objects s).
    destruct (objects s !! a) as [[i [c|]]|]; [reflexivity|reflexivity|]. destruct (read_account db a); reflexivity.
  Qed.
  Lemma update_current_same_codes s a f : codes (update_current db s a f) = codes s.
  Proof.
    unfold update_current, get_or_create_object, get_object.
    destruct (objects s !! a) as [[i [c|]]|]; [reflexivity|reflexivity|]. destruct (read_account db a); reflexivity.
  Qed.
  Lemma set_code_ext s a code : inv s -> code_of (keccak code) = code ->
    exists new, ext s (set_code keccak db s a code) new
      /\ (forall x, objx (set_code keccak db s a code) x = if decide (x = a) then mkObj (o_initial (objx s a)) (Some (with_code_hash (default account_default (o_current (objx s a))) (keccak code))) else objx s x)
      /\ rest3 (set_code keccak db s a code) = rest3 s.
  Proof.
    intros Hi Hk. set (h := keccak code). set (C := match codes s !! h with Some _ => codes s | None => <[h := code]> (codes s) end).
    assert (E : set_code keccak db s a code = update_current db (set_codes s C) a (fun c => with_code_hash c h)).
    { unfold set_code. rewrite update_current_same_codes. fold h. unfold C. destruct (codes s !! h); [destruct s; reflexivity|]. rewrite <- update_current_codes. reflexivity. }
    rewrite E.
    assert (HC : codes s ⊆ C) by (unfold C; destruct (codes s !! h) eqn:Eh; [reflexivity|now apply insert_subseteq]).
    assert (HCs : codes_sound C).
    { unfold C. destruct (codes s !! h) eqn:Eh; [apply Hi|]. intros x y. destruct (decide (x = h)) as [->|N]; [rewrite lookup_insert; intros [= <-]; symmetry; exact Hk|].
      rewrite lookup_insert_ne by congruence. apply Hi. }
    assert (HCh : C !! h = Some code).
    { unfold C. destruct (codes s !! h) eqn:Eh; [rewrite Eh; f_equal; rewrite (inv_codes _ Hi _ _ Eh); exact Hk|apply lookup_insert]. }
    pose proof (codes_ext s C Hi HC HCs) as X. destruct (update_current_ext (set_codes s C) a (fun c => with_code_hash c h)) as (new & X2 & O2 & R2).
    - apply X.
    - reflexivity.
    - intros o c (A & B). split; [exact A|]. cbn [o_current o_initial] in *. intros c' [= <-]. cbn [with_code_hash a_code_hash codes set_codes]. now rewrite HCh.
    - exists (new ++ []). split; [eapply ext_trans; [exact Hi|exact X|exact X2]|]. split; [exact O2|]. apply rest_rest3 in R2. exact R2.
  Qed.

  (** ** The relation *)
  Record R0 (s : ibs) (w : xworld) : Prop := {
    r_acct : forall a, x_acct w a = o_current (objx s a);
    r_cur : forall a k, curx (objx s a) (storage_of s a) a k = x_current w a k;
    r_orig : forall a k, origx (objx s a) (storage_of s a) a k = x_original w a k;
    r_sui : self_destructs s = x_suicides w;
    r_tou : forall a, a <> 3 -> a ∈ touched s <-> a ∈ x_touched w;
    r_addr : accessed_addresses s = x_addresses w;
    r_keys : accessed_keys s = x_keys w
  }.
  Record R (s : ibs) (w : xworld) : Prop := {
    r_0 : R0 s w;
    r_three : 3 ∈ touched s <-> 3 ∈ x_touched w;
    r_logs : logs s = x_logs w;
    r_refund : refund s = x_refund w
  }.
  Lemma R_touched s w : R s w -> touched s = x_touched w.
  Proof. intros [[] H _ _]. apply set_eq. intros x. destruct (N.eq_dec x 3) as [->|E]; [exact H|now apply r_tou0]. Qed.
  Lemma R0_sub s s' w : sub s s' -> R0 s w -> R0 s' w.
  Proof.
    intros [] []. constructor.
    - intros a. now rewrite sub_obj0.
    - intros a k. now rewrite sub_cur0.
    - intros a k. now rewrite sub_orig0.
    - congruence.
    - intros a Ha. rewrite sub_touched0 by exact Ha. auto.
    - congruence.
    - congruence.
  Qed.
  Lemma R_make s w : R0 s w -> touched s = x_touched w -> logs s = x_logs w -> refund s = x_refund w -> R s w.
  Proof. intros H0 Ht Hl Hf. constructor; auto. now rewrite Ht. Qed.

  Lemma bool_eta {A} (b : bool) (x : A) : (if b then x else x) = x.
  Proof. now destruct b. Qed.

  Lemma update_current_R s w a f : inv s -> R s w -> (forall c, a_incarnation (f c) = a_incarnation c) ->
    (forall o c, obj_ok (codes s) (mkObj o (Some c)) a -> obj_ok (codes s) (mkObj o (Some (f c))) a) ->
    exists new, ext s (update_current db s a f) new /\ R (update_current db s a f) (x_modify w a f)
      /\ rest (update_current db s a f) = rest s.
  Proof.
    intros Hi HR Hf Ho. destruct (update_current_ext s a f Hi Hf Ho) as (new & X & O & Hr). exists new. split; [exact X|]. split; [|exact Hr].
    set (s' := update_current db s a f) in *. pose proof (rest_storage _ _ a Hr).
    assert (D : forall x k, defx (objx s' x) x k = defx (objx s x) x k).
    { intros x k. rewrite O. destruct (decide (x = a)) as [->|]; [|reflexivity]. unfold defx at 1. cbn [o_initial o_current]. rewrite Hf.
      destruct (o_current (objx s a)) as [c|] eqn:Ec; cbn [default]; [unfold defx; now rewrite Ec|].
      transitivity (defx (mkObj (o_initial (objx s a)) (Some account_default)) a k); [reflexivity|]. rewrite defx_fresh. unfold defx. rewrite Ec. now destruct (o_initial _). }
    pose proof (R_touched _ _ HR) as Ht. destruct HR as [[] _ Hl Hf']. unfold rest in Hr. injection Hr as E1 E2 E3 E4 E5 E6 E7 E8.
    apply R_make; cbn; try congruence. constructor; cbn; try congruence.
    - intros x. rewrite O. unfold upd. destruct (N.eqb_spec x a) as [->|N]; [destruct (decide (a = a)); [|congruence]|destruct (decide (x = a)); [congruence|apply r_acct0]]. cbn [o_current].
      f_equal. f_equal. unfold x_get. now rewrite r_acct0.
    - intros x k. unfold storage_of. rewrite E1. rewrite <- r_cur0. now apply curx_def.
    - intros x k. unfold storage_of. rewrite E1. rewrite <- r_orig0. now apply origx_def.
    - intros x Hx. rewrite E5. auto.
  Qed.

  Lemma touch_R s w a : inv s -> R s w -> exists new, ext s (touch s a) new /\ R (touch s a) (x_touch w a)
    /\ logs (touch s a) = logs s /\ (3 ∈ touched s -> 3 ∈ touched (touch s a)).
  Proof.
    intros Hi HR. destruct (touch_ext s a Hi) as (new & X). exists new. split; [exact X|].
    assert (E : touched (touch s a) = {[a]} ∪ touched s) by (unfold touch; destruct (_ && _); reflexivity).
    assert (L : logs (touch s a) = logs s) by (unfold touch; destruct (_ && _); reflexivity).
    assert (Q : refund (touch s a) = refund s) by (unfold touch; destruct (_ && _); reflexivity).
    split; [|split; [exact L|rewrite E; set_solver]].
    pose proof (R_touched _ _ HR) as Ht. destruct HR as [[] _ Hl Hf]. apply R_make; cbn; try congruence.
    unfold touch in *. destruct (_ && _); constructor; cbn in *; auto; rewrite Ht; auto.
  Qed.

  (** ** One call *)
  Definition plain (o : op) : Prop :=
    match o with OSnapshot | ORevert _ | OFinalize | ODestruct _ | ODestructSuicides _ | ODestructTouchedDead _ | OClear => False | _ => True end.

  (** Reading an account: the object found, the state afterwards. *)
  Lemma read_R s w a p s1 : inv s -> R s w -> get_object db s a = (p, s1) ->
    ext s s1 [] /\ R s1 w /\ rest s1 = rest s /\ x_acct w a = current_of p
    /\ current_of p = o_current (objx s a).
  Proof.
    intros Hi HR E. pose proof (get_object_ext _ _ _ _ Hi E) as X. pose proof (get_object_rest _ _ _ _ E) as Hr.
    pose proof (get_object_sub _ _ _ _ E) as Hs. apply get_object_spec in E as (_ & _ & _ & _ & _ & _ & _ & _ & _ & _ & H).
    assert (Hcur : current_of p = o_current (objx s a)) by (destruct p; cbn; [now subst|destruct H as (-> & _); reflexivity]).
    split; [exact X|]. pose proof (R_touched _ _ HR) as Ht. destruct HR as [H0 _ Hl Hf]. split; [|split; [exact Hr|split; [rewrite Hcur; apply H0|exact Hcur]]].
    unfold rest in Hr. apply R_make; try congruence. now apply R0_sub with s.
  Qed.

  Lemma dead_eq s w a p s1 : inv s -> R s w -> get_object db s a = (p, s1) ->
    match current_of p with None => true | Some c => bytes_eqb (a_code_hash c) kEmptyHash && (a_nonce c =? 0) && (a_balance c =? 0) end = x_dead w a.
  Proof.
    intros Hi HR E. destruct (read_R s w a p s1 Hi HR E) as (_ & _ & _ & Ha & Hc). unfold x_dead. rewrite Ha. now destruct (current_of p).
  Qed.

  Definition step_ok (s : ibs) (s' : ibs) (w' : xworld) : Prop :=
    exists new, ext s s' new /\ R s' w' /\ (exists extra, logs s' = logs s ++ extra) /\ (3 ∈ touched s -> 3 ∈ touched s').

  Lemma step_ok_rest s s' w' new : ext s s' new -> R s' w' -> logs s' = logs s -> touched s' = touched s -> step_ok s s' w'.
  Proof. intros X HR Hl Ht. exists new. split; [exact X|]. split; [exact HR|]. split; [exists []; now rewrite app_nil_r|now rewrite Ht]. Qed.

  Lemma balance_ok cs o c a v : obj_ok cs (mkObj o (Some c)) a -> obj_ok cs (mkObj o (Some (with_balance c v))) a.
  Proof. intros (A & B). split; [exact A|]. cbn [o_current o_initial] in *. intros c' [= <-]. exact (B c eq_refl). Qed.
  Lemma nonce_ok cs o c a v : obj_ok cs (mkObj o (Some c)) a -> obj_ok cs (mkObj o (Some (with_nonce c v))) a.
  Proof. intros (A & B). split; [exact A|]. cbn [o_current o_initial] in *. intros c' [= <-]. exact (B c eq_refl). Qed.

  Lemma balance_step s w a v : inv s -> R s w ->
    step_ok s (touch (update_current db s a (fun c => with_balance c (v c))) a) (x_touch (x_modify w a (fun c => with_balance c (v c))) a).
  Proof.
    intros Hi HR. destruct (update_current_R s w a (fun c => with_balance c (v c)) Hi HR) as (new & X & HR1 & Hr).
    - reflexivity.
    - intros o c. apply balance_ok.
    - set (s1 := update_current _ _ _ _) in *. destruct (touch_R s1 _ a (ext_inv _ _ _ X) HR1) as (new2 & X2 & HR2 & Hl & Ht).
      exists (new2 ++ new). split; [eapply ext_trans; [exact Hi|exact X|exact X2]|]. split; [exact HR2|]. unfold rest in Hr.
      split; [exists []; rewrite app_nil_r; congruence|]. intros H3. apply Ht. now replace (touched s1) with (touched s) by congruence.
  Qed.

  Ltac read_op :=
    match goal with Hi : inv ?s, HR : R ?s ?w |- context [get_object db ?s ?a] =>
      let p := fresh "p" in let s1 := fresh "s1" in let E := fresh "E" in
      destruct (get_object db s a) as [p s1] eqn:E; pose proof (dead_eq s w a p s1 Hi HR E) as Hdead;
      destruct (read_R s w a p s1 Hi HR E) as (X & HR1 & Hr & Ha & Hc)
    end.

  Lemma op_sim s w o sa sc v w' sa' : plain o -> inv s -> (forall c, In c (op_code o) -> code_of (keccak c) = c) -> R s w ->
    xstep keccak code_of db (w, sa) o = Some (v, (w', sa')) ->
    sa' = sa /\ exists s', cstep keccak db (s, sc) o = (v, (s', sc)) /\ step_ok s s' w'.
  Proof.
    intros Hp Hi Hcode HR. destruct o; try contradiction; cbn [xstep cstep].
    - (* exists *) intros [= <- <- <-]. split; [reflexivity|]. unfold exists_. read_op. eexists. cbn [fst snd]. split.
      + unfold x_exists. rewrite Ha. destruct (current_of p); reflexivity.
      + unfold rest in Hr. eapply step_ok_rest; [exact X|exact HR1|congruence|congruence].
    - (* dead *) intros [= <- <- <-]. split; [reflexivity|]. unfold is_dead. read_op. eexists. cbn [fst snd]. split.
      + rewrite Hdead. reflexivity.
      + unfold rest in Hr. eapply step_ok_rest; [exact X|exact HR1|congruence|congruence].
    - (* balance *) intros [= <- <- <-]. split; [reflexivity|]. unfold get_balance. read_op. eexists. cbn [fst snd]. split.
      + unfold x_get. rewrite Ha. destruct (current_of p); reflexivity.
      + unfold rest in Hr. eapply step_ok_rest; [exact X|exact HR1|congruence|congruence].
    - (* nonce *) intros [= <- <- <-]. split; [reflexivity|]. unfold get_nonce. read_op. eexists. cbn [fst snd]. split.
      + unfold x_get. rewrite Ha. destruct (current_of p); reflexivity.
      + unfold rest in Hr. eapply step_ok_rest; [exact X|exact HR1|congruence|congruence].
    - (* code *) intros [= <- <- <-]. split; [reflexivity|]. destruct (get_code db s a) as [c s1] eqn:E.
      destruct (get_code_ext _ _ _ _ Hi E) as (X & O & Hr & Ev). eexists. cbn [fst snd]. split.
      + rewrite Ev. unfold x_get. rewrite (r_acct _ _ (r_0 _ _ HR)). destruct (o_current (objx s a)); [reflexivity|]. cbn [default account_default a_code_hash]. now rewrite Hcempty.
      + unfold rest3 in Hr. eapply step_ok_rest; [exact X| |congruence|congruence]. pose proof (R_touched _ _ HR). destruct HR. apply R_make; try congruence.
        apply R0_sub with s; [exact (ext_sub _ _ _ X)|assumption].
    - (* code hash *) intros [= <- <- <-]. split; [reflexivity|]. unfold get_code_hash. read_op. eexists. cbn [fst snd]. split.
      + unfold x_get. rewrite Ha. destruct (current_of p); reflexivity.
      + unfold rest in Hr. eapply step_ok_rest; [exact X|exact HR1|congruence|congruence].
    - (* current *) intros [= <- <- <-]. split; [reflexivity|]. unfold get_current_storage. destruct (get_storage db s a k false) as [c s1] eqn:E.
      destruct (get_storage_ext _ _ _ _ _ _ Hi E) as (X & O & Hr & Ev & _). eexists. cbn [fst snd]. split.
      + rewrite Ev. unfold x_exists. rewrite (r_acct _ _ (r_0 _ _ HR)), <- (r_cur _ _ (r_0 _ _ HR)). destruct (o_current (objx s a)); reflexivity.
      + unfold rest2 in Hr. eapply step_ok_rest; [exact X| |congruence|congruence]. pose proof (R_touched _ _ HR). destruct HR. apply R_make; try congruence.
        apply R0_sub with s; [exact (ext_sub _ _ _ X)|assumption].
    - (* original *) intros [= <- <- <-]. split; [reflexivity|]. unfold get_original_storage. destruct (get_storage db s a k true) as [c s1] eqn:E.
      destruct (get_storage_ext _ _ _ _ _ _ Hi E) as (X & O & Hr & Ev & _). eexists. cbn [fst snd]. split.
      + rewrite Ev. unfold x_exists. rewrite (r_acct _ _ (r_0 _ _ HR)), <- (r_orig _ _ (r_0 _ _ HR)). destruct (o_current (objx s a)); reflexivity.
      + unfold rest2 in Hr. eapply step_ok_rest; [exact X| |congruence|congruence]. pose proof (R_touched _ _ HR). destruct HR. apply R_make; try congruence.
        apply R0_sub with s; [exact (ext_sub _ _ _ X)|assumption].
    - (* create *) intros [= <- <- <-]. split; [reflexivity|]. eexists. split; [reflexivity|].
      destruct (create_ext s a Hi) as (new & X & O & S & C1 & C2 & C3 & C4 & C5 & C6 & C7).
      exists new. split; [exact X|]. split; [|split; [exists []; rewrite app_nil_r; exact C3|now rewrite C4]].
      pose proof (R_touched _ _ HR) as Ht. destruct (inv_obj _ Hi a) as (Hini & _).
      destruct HR as [[] _ Hl Hf].
      assert (En : create_incarnation (objx s a) a = next_incarnation db w a) by (unfold create_incarnation, next_incarnation; now rewrite r_acct0, Hini).
      assert (Ed : forall k, defx (created (objx s a) a) a k = created_storage db w a k).
      { intros k. unfold defx, created, created_storage. cbn [o_initial o_current a_incarnation]. now rewrite Hini, En. }
      apply R_make; cbn; try congruence. constructor; cbn; try congruence.
      + intros x. rewrite O. unfold upd. destruct (N.eqb_spec x a) as [->|N]; [destruct (decide (a = a)); [|congruence]|destruct (decide (x = a)); [congruence|apply r_acct0]].
        unfold created. cbn [o_current]. rewrite En. unfold x_get. rewrite r_acct0. destruct (o_current (objx s a)); reflexivity.
      + intros x k. rewrite O, S. unfold upd. destruct (N.eqb_spec x a) as [->|N]; [destruct (decide (a = a)); [|congruence]|destruct (decide (x = a)); [congruence|apply r_cur0]].
        unfold curx, origx. cbn [storage_empty st_current st_committed]. rewrite !lookup_empty. apply Ed.
      + intros x k. rewrite O, S. unfold upd. destruct (N.eqb_spec x a) as [->|N]; [destruct (decide (a = a)); [|congruence]|destruct (decide (x = a)); [congruence|apply r_orig0]].
        unfold origx. cbn [storage_empty st_committed]. rewrite !lookup_empty. apply Ed.
      + intros x Hx. rewrite C4. auto.
    - intros [= <- <- <-]. split; [reflexivity|]. eexists. split; [reflexivity|]. unfold set_balance. apply (balance_step s w a (fun _ => v0)); assumption.
    - intros [= <- <- <-]. split; [reflexivity|]. eexists. split; [reflexivity|]. unfold add_to_balance. apply (balance_step s w a (fun c => (a_balance c + v0) mod 2 ^ 256)); auto.
    - intros [= <- <- <-]. split; [reflexivity|]. eexists. split; [reflexivity|]. unfold subtract_from_balance. apply (balance_step s w a (fun c => (a_balance c + 2 ^ 256 - v0) mod 2 ^ 256)); auto.
    - (* nonce *) intros [= <- <- <-]. split; [reflexivity|]. eexists. split; [reflexivity|]. unfold set_nonce.
      destruct (update_current_R s w a (fun c => with_nonce c n) Hi HR) as (new & X & HR1 & Hr).
      + reflexivity.
      + intros o c. apply nonce_ok.
      + unfold rest in Hr. eapply step_ok_rest; [exact X|exact HR1|congruence|congruence].
    - (* set code *) intros [= <- <- <-]. split; [reflexivity|]. eexists. split; [reflexivity|].
      assert (Hk : code_of (keccak c) = c) by (apply Hcode; left; reflexivity).
      destruct (set_code_ext s a c Hi Hk) as (new & X & O & Hr). unfold rest3 in Hr. injection Hr as E1 E2 E3 E4 E5 E6 E7.
      eapply step_ok_rest; [exact X| |congruence|congruence]. pose proof (R_touched _ _ HR) as Ht. destruct HR as [[] _ Hl Hf]. set (s' := set_code keccak db s a c) in *.
      assert (D : forall x k, defx (objx s' x) x k = defx (objx s x) x k).
      { intros x k. rewrite O. destruct (decide (x = a)) as [->|]; [|reflexivity]. unfold defx at 1. cbn [o_initial o_current].
        destruct (o_current (objx s a)) as [y|] eqn:Ec; cbn [default]; [unfold defx; now rewrite Ec|].
        transitivity (defx (mkObj (o_initial (objx s a)) (Some account_default)) a k); [reflexivity|]. rewrite defx_fresh. unfold defx. rewrite Ec. now destruct (o_initial _). }
      apply R_make; cbn; try congruence. constructor; cbn; try congruence.
      + intros x. rewrite O. unfold upd. destruct (N.eqb_spec x a) as [->|N]; [destruct (decide (a = a)); [|congruence]|destruct (decide (x = a)); [congruence|apply r_acct0]].
        cbn [o_current]. unfold x_get. rewrite r_acct0. reflexivity.
      + intros x k. unfold storage_of. rewrite E1. rewrite <- r_cur0. now apply curx_def.
      + intros x k. unfold storage_of. rewrite E1. rewrite <- r_orig0. now apply origx_def.
      + intros x Hx. rewrite E4. auto.
    - (* set storage *) destruct (x_exists w a) eqn:Ew; [|discriminate]. intros [= <- <- <-]. split; [reflexivity|]. eexists. split; [reflexivity|].
      unfold x_exists in Ew. rewrite (r_acct _ _ (r_0 _ _ HR)) in Ew.
      assert (Hc : o_current (objx s a) <> None) by (destruct (o_current (objx s a)); [congruence|discriminate]).
      destruct (set_storage_ext s a k v0 Hi Hc) as (new & X & O & Hr & Cu & Or). unfold rest2 in Hr. eapply step_ok_rest; [exact X| |congruence|congruence].
      injection Hr as E1 E2 E3 E4 E5 E6 E7.
      pose proof (R_touched _ _ HR) as Ht. destruct HR as [[] _ Hl Hf]. apply R_make; cbn; try congruence. constructor; cbn; try congruence.
      + intros x j. rewrite O, Cu. unfold upd. destruct (N.eqb_spec x a) as [->|N]; [|destruct (decide _); [tauto|apply r_cur0]].
        destruct (N.eqb_spec j k) as [->|N]; destruct (decide _); try tauto. apply r_cur0.
      + intros x Hx. rewrite E4. auto.
    - (* access account *) intros [= <- <- <-]. split; [reflexivity|]. exists (snd (access_account s a)). split.
      + unfold access_account. cbn [fst snd]. rewrite (r_addr _ _ (r_0 _ _ HR)). reflexivity.
      + destruct (access_account_ext s a Hi) as (new & X). 
        eapply step_ok_rest; [exact X| |unfold access_account; cbn [snd]; now destruct (bool_decide _)|unfold access_account; cbn [snd]; now destruct (bool_decide _)].
        pose proof (R_touched _ _ HR) as Ht. destruct HR as [[] _ Hl Hf]. unfold access_account. cbn [snd]. destruct (bool_decide _); (apply R_make; [constructor; cbn; auto; try congruence|..]; cbn; auto).
    - (* access storage *) intros [= <- <- <-]. split; [reflexivity|]. exists (snd (access_storage s a k)). split.
      + unfold access_storage. cbn [fst snd]. rewrite (r_keys _ _ (r_0 _ _ HR)). reflexivity.
      + destruct (access_storage_ext s a k Hi) as (new & X). 
        eapply step_ok_rest; [exact X| |unfold access_storage; cbn [snd]; now destruct (bool_decide _)|unfold access_storage; cbn [snd]; now destruct (bool_decide _)].
        pose proof (R_touched _ _ HR) as Ht. destruct HR as [[] _ Hl Hf]. unfold access_storage. cbn [snd]. destruct (bool_decide _); (apply R_make; [constructor; cbn; auto; try congruence|..]; cbn; auto).
    - (* touch *) intros [= <- <- <-]. split; [reflexivity|]. eexists. split; [reflexivity|]. destruct (touch_R s w a Hi HR) as (new & X & HR1 & Hl & Ht).
      exists new. split; [exact X|]. split; [exact HR1|]. split; [exists []; now rewrite app_nil_r|exact Ht].
    - (* suicide *) intros [= <- <- <-]. split; [reflexivity|]. eexists. split; [reflexivity|]. destruct (suicide_ext s a Hi) as (new & X).
      unfold record_suicide in *. eapply step_ok_rest; [exact X| |now destruct (bool_decide _)|now destruct (bool_decide _)].
      pose proof (R_touched _ _ HR) as Ht. destruct HR as [[] _ Hl Hf]. destruct (bool_decide _); (apply R_make; [constructor; cbn; auto; try congruence|..]; cbn; auto).
    - (* log *) intros [= <- <- <-]. split; [reflexivity|]. eexists. split; [reflexivity|]. exists []. split; [|split; [|split; [now exists [l]|auto]]].
      + apply ext_cache; [apply inv_ext_eq with (4 := Hi); reflexivity|reflexivity|constructor; auto].
      + pose proof (R_touched _ _ HR) as Ht. destruct HR as [[] _ Hl Hf]. apply R_make; [constructor; cbn; auto|..]; cbn; auto. now rewrite Hl.
    - (* refund *) intros [= <- <- <-]. split; [reflexivity|]. eexists. split; [reflexivity|]. eapply (step_ok_rest _ _ _ []); [| |reflexivity|reflexivity].
      + apply ext_cache; [apply inv_ext_eq with (4 := Hi); reflexivity|reflexivity|constructor; auto].
      + pose proof (R_touched _ _ HR) as Ht. destruct HR as [[] _ Hl Hf]. apply R_make; [constructor; cbn; auto|..]; cbn [set_refund add_refund refund logs touched x_set_sub x_refund x_logs x_touched]; auto. now rewrite Hf.
    - (* refund *) intros [= <- <- <-]. split; [reflexivity|]. eexists. split; [reflexivity|]. eapply (step_ok_rest _ _ _ []); [| |reflexivity|reflexivity].
      + apply ext_cache; [apply inv_ext_eq with (4 := Hi); reflexivity|reflexivity|constructor; auto].
      + pose proof (R_touched _ _ HR) as Ht. destruct HR as [[] _ Hl Hf]. apply R_make; [constructor; cbn; auto|..]; cbn [set_refund subtract_refund refund logs touched x_set_sub x_refund x_logs x_touched]; auto. now rewrite Hf.
    - intros [= <- <- <-]. split; [reflexivity|]. exists s. split; [now rewrite (r_sui _ _ (r_0 _ _ HR))|]. eapply step_ok_rest; [apply ext_refl, Hi|exact HR|reflexivity|reflexivity].
    - intros [= <- <- <-]. split; [reflexivity|]. exists s. split; [now rewrite (r_logs _ _ HR)|]. eapply step_ok_rest; [apply ext_refl, Hi|exact HR|reflexivity|reflexivity].
    - intros [= <- <- <-]. split; [reflexivity|]. exists s. split; [now rewrite (r_refund _ _ HR)|]. eapply step_ok_rest; [apply ext_refl, Hi|exact HR|reflexivity|reflexivity].
  Qed.

  (** ** Snapshots *)
  Definition good (s : ibs) (bl : list block) (base : list delta) (x : list block * snapshot * xworld) : Prop :=
    let '(suf, n, w) := x in
    exists pre, bl = pre ++ suf /\ journal_size n = length (flat suf ++ base) /\ R0 (undo_all s pre) w
      /\ (log_size n <= length (logs s))%nat /\ take (log_size n) (logs s) = x_logs w /\ snap_refund n = x_refund w
      /\ (3 ∈ x_touched w -> 3 ∈ touched s).
  Definition below (x y : list block * snapshot * xworld) : Prop :=
    (exists mid, fst (fst y) = mid ++ fst (fst x)) /\ (log_size (snd (fst x)) <= log_size (snd (fst y)))%nat.
  Record rel (x : ibs * list snapshot) (y : xworld * list xworld) : Prop := {
    rel_inv : inv (fst x);
    rel_R : R (fst x) (fst y);
    rel_st : exists bl base g, journal (fst x) = flat bl ++ base /\ jinv bl (fst x)
      /\ snd x = map (fun x => snd (fst x)) g /\ snd y = map snd g
      /\ Forall (good (fst x) bl base) g
      /\ forall i j a b, (i <= j)%nat -> nth_error g i = Some a -> nth_error g j = Some b -> below a b
  }.

  Lemma rel_fresh s w : inv s -> R s w -> rel (s, []) (w, []).
  Proof.
    intros Hi HR. constructor; [exact Hi|exact HR|]. exists [], (journal s), []. repeat split; auto. 
    all: destruct i; discriminate.
  Qed.

  Lemma rel_plain s sc w sa new s' w' : rel (s, sc) (w, sa) -> ext s s' new -> R s' w' -> (exists extra, logs s' = logs s ++ extra) ->
    (3 ∈ touched s -> 3 ∈ touched s') -> rel (s', sc) (w', sa).
  Proof.
    intros [Hi _ (bl & base & g & H1 & H2 & H3 & H4 & H5 & H6)] X HR (extra & Hl) Ht. cbn [fst snd] in *. constructor; [apply X|exact HR|].
    exists (new ++ bl), base, g. cbn [fst snd]. split; [rewrite flat_app, <- app_assoc, <- H1; apply X|]. split; [eapply ext_below; eassumption|]. split; [exact H3|]. split; [exact H4|].
    split; [|exact H6]. eapply List.Forall_impl; [|exact H5]. intros [[suf m] w0] (pre & -> & G2 & G3 & G4 & G5 & G6 & G7).
    exists (new ++ pre). split; [now rewrite app_assoc|]. split; [exact G2|]. split; [|split; [|split; [|split; [exact G6|auto]]]].
    - rewrite undo_all_app. apply jinv_app in H2 as (H2 & _). eapply R0_sub; [|exact G3]. eapply undo_all_sub; [apply X|exact Hi| |exact H2]. rewrite undo_all_codes. apply X.
    - rewrite Hl, app_length. lia.
    - rewrite Hl. rewrite take_app_le by exact G4. exact G5.
  Qed.

  Lemma rel_snapshot s sc w sa : rel (s, sc) (w, sa) -> rel (s, sc ++ [take_snapshot s]) (w, sa ++ [w]).
  Proof.
    intros [Hi HR (bl & base & g & H1 & H2 & H3 & H4 & H5 & H6)]. cbn [fst snd] in *. constructor; [exact Hi|exact HR|]. cbn [fst snd].
    exists bl, base, (g ++ [(bl, take_snapshot s, w)]). split; [exact H1|]. split; [exact H2|]. split; [rewrite map_app, H3; reflexivity|]. split; [rewrite map_app, H4; reflexivity|].
    split.
    - apply Forall_app. split; [exact H5|]. constructor; [|constructor]. exists []. split; [reflexivity|]. cbn [take_snapshot journal_size log_size snap_refund]. rewrite H1.
      split; [reflexivity|]. split; [apply HR|]. split; [lia|]. rewrite firstn_all. split; [apply HR|]. split; [apply HR|]. apply (r_three _ _ HR).
    - assert (L : forall i a, nth_error (g ++ [(bl, take_snapshot s, w)]) i = Some a -> nth_error g i = Some a \/ (i = length g /\ a = (bl, take_snapshot s, w))).
      { intros i a Ha. destruct (Nat.lt_ge_cases i (length g)) as [Hlt|Hge]; [left; now rewrite nth_error_app1 in Ha|]. right. rewrite nth_error_app2 in Ha by exact Hge.
        destruct (i - length g)%nat as [|[|m]] eqn:Em; cbn in Ha; try discriminate. split; [lia|congruence]. }
      intros i j a b Hij Ha Hb. apply L in Ha as [Ha|[-> ->]], Hb as [Hb|[-> ->]].
      + eapply H6; eassumption.
      + rewrite List.Forall_forall in H5. specialize (H5 a (nth_error_In _ _ Ha)). destruct a as [[suf m] w0]. destruct H5 as (pre & -> & _ & _ & G4 & _).
        split; cbn [fst snd]; [now exists pre|exact G4].
      + assert (j < length g)%nat by (apply nth_error_Some; congruence). lia.
      + split; [now exists []|lia].
  Qed.

  Lemma fold_flat bl : forall s, fold_left revert_delta (flat bl) s = undo_all s bl.
  Proof. induction bl as [|b t IH]; intros s; [reflexivity|]. cbn [flat flat_map]. rewrite fold_left_app. apply (IH (undo s b)). Qed.
  Lemma revert_rest s d : journal (revert_delta s d) = journal s /\ logs (revert_delta s d) = logs s.
  Proof. destruct d; split; reflexivity. Qed.
  Lemma undo_all_logs bl : forall s, logs (undo_all s bl) = logs s.
  Proof.
    intros s. rewrite <- fold_flat. generalize (flat bl). clear bl. intros l. revert s. induction l as [|d t IH]; intros s; [reflexivity|]. cbn. rewrite IH. apply revert_rest.
  Qed.
  Lemma undo_three s b : valid s b -> (3 ∈ touched (undo s b) <-> 3 ∈ touched s).
  Proof.
    intros Hv. destruct b as [d|d1 d2]; [|destruct (pair_effect _ _ _ Hv) as (_ & _ & _ & _ & _ & -> & _); reflexivity].
    destruct d; cbn in *; try reflexivity; try contradiction. set_solver.
  Qed.
  Lemma undo_all_three bl : forall s, jinv bl s -> (3 ∈ touched (undo_all s bl) <-> 3 ∈ touched s).
  Proof.
    induction bl as [|b t IH]; intros s; [reflexivity|]. cbn [jinv]. intros (Hv & Hj). change (undo_all s (b :: t)) with (undo_all (undo s b) t). rewrite (IH _ Hj). now apply undo_three.
  Qed.
  Lemma in_firstn {A} (x : A) k l : In x (firstn k l) -> In x l.
  Proof. revert k; induction l as [|y t IH]; intros [|k]; cbn; try tauto. intros [->|H]; [now left|right; eauto]. Qed.
  Lemma nth_firstn {A} (l : list A) : forall k i x, nth_error (firstn k l) i = Some x -> nth_error l i = Some x /\ (i < k)%nat.
  Proof. induction l as [|y t IH]; intros [|k] [|i] x; cbn; try discriminate; [intros H; split; [exact H|lia]|]. intros H. destruct (IH _ _ _ H). split; [assumption|lia]. Qed.

  Lemma rel_revert s sc w sa i saved : rel (s, sc) (w, sa) -> nth_error sa i = Some saved ->
    exists m, nth_error sc i = Some m /\ rel (revert_to_snapshot s m, firstn (S i) sc) (x_restore saved w, firstn (S i) sa).
  Proof.
    intros [Hi HR (bl & base & g & H1 & H2 & H3 & H4 & H5 & H6)]. cbn [fst snd] in *. subst sc sa. rewrite !nth_error_map.
    destruct (nth_error g i) as [[[suf m] w0]|] eqn:Eg; [|discriminate]. cbn [option_map snd fst]. intros [= ->]. exists m. split; [reflexivity|].
    assert (Hg := H5). rewrite List.Forall_forall in Hg. pose proof (Hg _ (nth_error_In _ _ Eg)) as (pre & Ebl & G2 & G3 & G4 & G5 & G6 & G7).
    assert (Ej : journal s = flat pre ++ (flat suf ++ base)) by (rewrite H1, Ebl, flat_app, app_assoc; reflexivity).
    assert (Ek : (length (journal s) - journal_size m = length (flat pre))%nat) by (rewrite Ej, G2, app_length; lia).
    set (s' := revert_to_snapshot s m).
    set (u := undo_all s pre) in *.
    assert (Es : s' = set_refund (set_logs (set_journal u (flat suf ++ base)) (take (log_size m) (logs s))) (snap_refund m)).
    { unfold s', revert_to_snapshot. rewrite Ek. replace (take (length (flat pre)) (journal s)) with (flat pre) by (rewrite Ej; symmetry; apply take_app).
      rewrite fold_flat. replace (drop (length (flat pre)) (journal s)) with (flat suf ++ base) by (rewrite Ej; symmetry; apply drop_app).
      change (logs (set_journal (undo_all s pre) _)) with (logs (undo_all s pre)). rewrite undo_all_logs. reflexivity. }
    rewrite Ebl in H2. apply jinv_app in H2 as (J1 & J2). fold u in J2.
    assert (Su : sub u s') by (rewrite Es; constructor; auto).
    assert (Iu : inv u) by (now apply undo_all_inv).
    assert (Is : inv s') by (apply inv_ext_eq with (4 := Iu); rewrite Es; reflexivity).
    assert (R0s : R0 s' saved) by (now apply R0_sub with u).
    assert (T3 : 3 ∈ touched s' <-> 3 ∈ touched s) by (rewrite Es; cbn; now apply undo_all_three).
    constructor; cbn [fst snd].
    - exact Is.
    - constructor.
      + destruct R0s. constructor; auto. intros a Ha. rewrite (r_tou0 a Ha). cbn. destruct (bool_decide _); [|reflexivity]. set_solver.
      + rewrite T3, (R_touched _ _ HR). cbn. destruct (bool_decide (3 ∈ x_touched w)) eqn:E3.
        * apply bool_decide_eq_true in E3. set_solver.
        * apply bool_decide_eq_false in E3. rewrite (R_touched _ _ HR) in G7. split; [contradiction|auto].
      + rewrite Es. cbn. exact G5.
      + rewrite Es. cbn. exact G6.
    - exists suf, base, (firstn (S i) g). split; [rewrite Es; reflexivity|].
      split; [eapply jinv_sub; [exact Su|exact Iu|rewrite Es; apply Iu|exact J2]|].
      split; [apply firstn_map|]. split; [apply firstn_map|]. split.
      + rewrite List.Forall_forall. intros y Hy. apply In_nth_error in Hy as [j Hj]. apply nth_firstn in Hj as [Hj Hlt].
        destruct (H6 j i y _ ltac:(lia) Hj Eg) as ((mid & Emid) & Hls). destruct y as [[suf_j m_j] w_j]. cbn [fst snd] in *.
        destruct (Hg _ (nth_error_In _ _ Hj)) as (pre_j & Ebl_j & K2 & K3 & K4 & K5 & K6 & K7).
        assert (pre_j = pre ++ mid). { rewrite Ebl, Emid, app_assoc in Ebl_j. now apply app_inv_tail in Ebl_j. } subst pre_j.
        exists mid. split; [exact Emid|]. split; [exact K2|]. split; [|split; [|split; [|split; [exact K6|]]]].
        * rewrite undo_all_app in K3. fold u in K3. eapply R0_sub; [|exact K3]. eapply undo_all_sub; [exact Su|exact Iu|rewrite Es; apply Iu|]. rewrite Emid in J2. apply jinv_app in J2 as (J2 & _). exact J2.
        * rewrite Es. cbn. rewrite take_length. lia.
        * rewrite Es. cbn. rewrite take_take. rewrite Nat.min_l by exact Hls. exact K5.
        * rewrite T3. exact K7.
      + intros i' j a b Hij Ha Hb. apply nth_firstn in Ha as [Ha _], Hb as [Hb _]. eapply H6; eassumption.
  Qed.

  (** ** Transaction boundary *)
  Lemma destruct_R s w a : inv s -> R s w -> inv (destruct_ db s a) /\ R (destruct_ db s a) (x_destruct w a).
  Proof.
    intros Hi HR. unfold destruct_. set (s0 := set_storages s (delete a (storages s))).
    destruct (get_object db s0 a) as [p s1] eqn:E. pose proof (get_object_rest _ _ _ _ E) as Hr. apply get_object_spec in E as (H1 & _ & _ & _ & _ & _ & _ & _ & _ & _ & H).
    set (s' := match p with Some o => _ | None => s1 end).
    assert (O : forall x, objx s' x = if decide (x = a) then mkObj (o_initial (objx s a)) None else objx s x).
    { intros x. unfold s'. destruct p as [p|].
      - rewrite objx_insert. subst p. destruct (decide (x = a)); [reflexivity|]. apply H1.
      - rewrite H1. change (objx s0 x) with (objx s x). destruct (decide (x = a)) as [->|]; [|reflexivity]. destruct H as (H & _). change (objx s0 a) with (objx s a) in H. now rewrite H. }
    assert (S : forall x, storage_of s' x = if decide (x = a) then storage_empty else storage_of s x).
    { intros x. replace (storage_of s' x) with (storage_of s0 x); [apply storage_of_delete|]. symmetry. unfold s'. rewrite <- (rest_storage s0 s1 x Hr). now destruct p. }
    assert (Rs : rest2 s' = rest2 s) by (apply rest_rest2 in Hr; transitivity (rest2 s1); [unfold s'; now destruct p|exact Hr]).
    clearbody s'. clear - Hi HR O S Rs. unfold rest2 in Rs. injection Rs as E1 E2 E3 E4 E5 E6 E7. split.
    - constructor.
      + intros x. rewrite O, S. destruct (decide (x = a)) as [->|]; [apply st_ok_empty|apply Hi].
      + intros x. rewrite O, E1. destruct (decide (x = a)) as [->|]; [|apply Hi]. split; [apply (inv_obj _ Hi a)|]. cbn. discriminate.
      + rewrite E1. apply Hi.
    - pose proof (R_touched _ _ HR) as Ht. destruct HR as [[] _ Hl Hf]. apply R_make; cbn; try congruence. constructor; cbn; try congruence.
      + intros x. rewrite O. unfold upd. destruct (N.eqb_spec x a) as [->|N]; [destruct (decide (a = a)); [|congruence]; reflexivity|destruct (decide (x = a)); [congruence|apply r_acct0]].
      + intros x k. rewrite O, S. unfold upd. destruct (N.eqb_spec x a) as [->|N]; [destruct (decide (a = a)); [|congruence]|destruct (decide (x = a)); [congruence|apply r_cur0]].
        unfold curx, origx. cbn. rewrite !lookup_empty. apply defx_none.
      + intros x k. rewrite O, S. unfold upd. destruct (N.eqb_spec x a) as [->|N]; [destruct (decide (a = a)); [|congruence]|destruct (decide (x = a)); [congruence|apply r_orig0]].
        unfold origx. cbn. rewrite !lookup_empty. apply defx_none.
      + intros x Hx. rewrite E4. auto.
  Qed.
  Lemma destruct_all_R l : forall s w, inv s -> R s w -> inv (destruct_suicides db s l) /\ R (destruct_suicides db s l) (fold_left x_destruct l w).
  Proof.
    induction l as [|a t IH]; intros s w Hi HR; [split; assumption|]. destruct (destruct_R s w a Hi HR) as (Hi' & HR'). apply (IH _ _ Hi' HR').
  Qed.
  Lemma destruct_dead_R l : forall s w, inv s -> R s w -> inv (destruct_touched_dead db s l) /\
    R (destruct_touched_dead db s l) (fold_left (fun w a => if x_dead w a then x_destruct w a else w) l w).
  Proof.
    induction l as [|a t IH]; intros s w Hi HR; [split; assumption|]. unfold destruct_touched_dead. cbn [fold_left]. unfold is_dead at 2 4.
    destruct (get_object db s a) as [p s1] eqn:E. pose proof (dead_eq s w a p s1 Hi HR E) as Hd. destruct (read_R s w a p s1 Hi HR E) as (X & HR1 & _).
    rewrite Hd. destruct (x_dead w a).
    - destruct (destruct_R s1 w a (ext_inv _ _ _ X) HR1) as (Hi' & HR'). apply (IH _ _ Hi' HR').
    - apply (IH _ _ (ext_inv _ _ _ X) HR1).
  Qed.

  Lemma finalize_storage_of s a : storage_of (finalize_transaction s) a = finalize_storage (storage_of s a).
  Proof.
    unfold storage_of, finalize_transaction. cbn [storages set_storages]. rewrite lookup_fmap. destruct (storages s !! a); [reflexivity|]. cbn. unfold finalize_storage, storage_empty. cbn.
    f_equal; try reflexivity. now apply map_eq.
  Qed.
  Lemma finalize_R s w : inv s -> R s w -> inv (finalize_transaction s) /\ R (finalize_transaction s) (x_set_storage w (x_current w) (x_current w)).
  Proof.
    intros Hi HR.
    assert (O : forall x, objx (finalize_transaction s) x = objx s x) by reflexivity.
    assert (Co : forall st k, st_committed (finalize_storage st) !! k = match st_committed st !! k, st_current st !! k with
        Some c, Some v => Some (mkCv (cv_initial c) v) | None, Some v => Some (mkCv 0 v) | c, None => c end).
    { intros st k. unfold finalize_storage. cbn [st_committed]. rewrite lookup_merge. unfold diag_None. destruct (st_committed st !! k), (st_current st !! k); reflexivity. }
    assert (Or : forall x k, origx (objx s x) (finalize_storage (storage_of s x)) x k = curx (objx s x) (storage_of s x) x k).
    { intros x k. unfold curx, origx. rewrite Co. destruct (st_committed (storage_of s x) !! k), (st_current (storage_of s x) !! k); reflexivity. }
    assert (Cu : forall x k, curx (objx s x) (finalize_storage (storage_of s x)) x k = curx (objx s x) (storage_of s x) x k).
    { intros x k. unfold curx at 1. cbn [finalize_storage st_current]. rewrite lookup_empty. apply Or. }
    split.
    - constructor; [|apply Hi|apply Hi]. intros x. rewrite O, finalize_storage_of. destruct (inv_st _ Hi x) as (A & B). split.
      + intros k v. cbn [finalize_storage st_current]. rewrite lookup_empty. discriminate.
      + intros k cv. rewrite Co. destruct (st_committed (storage_of s x) !! k) as [c|] eqn:Ec, (st_current (storage_of s x) !! k) as [v|] eqn:Ev; try discriminate.
        * intros [= <-]. cbn. now apply B.
        * intros [= <-]. now apply B.
        * intros [= <-]. cbn. destruct (A k v Ev) as [[y Hy]|Hy]; congruence.
    - pose proof (R_touched _ _ HR) as Ht. destruct HR as [[] _ Hl Hf]. apply R_make; cbn; try congruence. constructor; cbn; auto.
      + intros x k. rewrite O, finalize_storage_of, Cu. apply r_cur0.
      + intros x k. rewrite O, finalize_storage_of, Or. apply r_cur0.
  Qed.
  Lemma clear_R s w : inv s -> R s w -> inv (clear_journal_and_substate s) /\ R (clear_journal_and_substate s) (x_set_sub w ∅ [] ∅ 0 ∅ ∅).
  Proof.
    intros Hi HR. split; [apply inv_ext_eq with (4 := Hi); reflexivity|]. destruct HR as [[] _ Hl Hf]. apply R_make; cbn; auto. constructor; cbn; auto.
  Qed.

  (** ** Histories *)
  Lemma step_sim x y o v y' : rel x y -> (forall c, In c (op_code o) -> code_of (keccak c) = c) ->
    xstep keccak code_of db y o = Some (v, y') -> exists x', cstep keccak db x o = (v, x') /\ rel x' y'.
  Proof.
    intros Hrel Hc Ha. destruct x as [s sc], y as [w sa], y' as [w' sa'].
    assert (P : plain o -> exists x', cstep keccak db (s, sc) o = (v, x') /\ rel x' (w', sa')).
    { intros Hp. destruct (op_sim s w o sa sc v w' sa' Hp (rel_inv _ _ Hrel) Hc (rel_R _ _ Hrel) Ha) as (-> & s' & E & new & X & HR & Hl & Ht).
      exists (s', sc). split; [exact E|]. eapply rel_plain; eassumption. }
    pose proof (rel_inv _ _ Hrel) as Hi. pose proof (rel_R _ _ Hrel) as HR. cbn [fst snd] in *.
    destruct o; try (apply P; exact I); clear P; cbn [xstep cstep] in *.
    - injection Ha as <- <- <-. eexists. split; [reflexivity|]. now apply rel_snapshot.
    - destruct (nth_error sa i) as [saved|] eqn:Es; [|discriminate]. injection Ha as <- <- <-. destruct (rel_revert s sc w sa i saved Hrel Es) as (m & -> & Hr).
      eexists. split; [reflexivity|exact Hr].
    - injection Ha as <- <- <-. eexists. split; [reflexivity|]. destruct (finalize_R s w Hi HR). now apply rel_fresh.
    - injection Ha as <- <- <-. eexists. split; [reflexivity|]. destruct (destruct_R s w a Hi HR). now apply rel_fresh.
    - injection Ha as <- <- <-. eexists. split; [reflexivity|]. destruct (destruct_all_R order s w Hi HR). now apply rel_fresh.
    - injection Ha as <- <- <-. eexists. split; [reflexivity|]. destruct (destruct_dead_R order s w Hi HR). now apply rel_fresh.
    - injection Ha as <- <- <-. eexists. split; [reflexivity|]. destruct (clear_R s w Hi HR). now apply rel_fresh.
  Qed.
  Lemma run_sim ops : forall x y vs y', rel x y -> (forall c, In c (flat_map op_code ops) -> code_of (keccak c) = c) ->
    xrun keccak code_of db y ops = Some (vs, y') -> exists x', crun keccak db x ops = (vs, x') /\ rel x' y'.
  Proof.
    induction ops as [|o t IH]; intros x y vs y' Hrel Hc.
    - intros [= <- <-]. exists x. split; [reflexivity|exact Hrel].
    - cbn [xrun crun flat_map] in *. destruct (xstep _ _ _ y o) as [[v y1]|] eqn:E; [|discriminate]. destruct (xrun _ _ _ y1 t) as [[vs1 y2]|] eqn:Et; [|discriminate].
      intros [= <- <-]. destruct (step_sim x y o v y1 Hrel ltac:(intros c H; apply Hc; apply in_or_app; now left) E) as (x1 & -> & Hrel1).
      destruct (IH x1 y1 vs1 y2 Hrel1 ltac:(intros c H; apply Hc; apply in_or_app; now right) Et) as (x2 & -> & Hrel2).
      exists x2. split; [reflexivity|exact Hrel2].
  Qed.

  (** What the caller may do is what the machine accepts. *)
  Lemma allowed_step x y o : rel x y -> allowed db x o = true -> exists v y', xstep keccak code_of db y o = Some (v, y').
  Proof.
    destruct x as [s sc], y as [w sa]. intros Hrel Ha. pose proof (rel_inv _ _ Hrel) as Hi. pose proof (rel_R _ _ Hrel) as HR.
    destruct o; cbn [xstep]; eauto; cbn [allowed fst snd] in *.
    - unfold exists_ in Ha. destruct (get_object db s a) as [p s1] eqn:E. destruct (read_R s w a p s1 Hi HR E) as (_ & _ & _ & Hx & _). cbn [fst] in Ha.
      unfold x_exists. rewrite Hx. destruct (current_of p); [eauto|discriminate].
    - apply Nat.ltb_lt in Ha. destruct (rel_st _ _ Hrel) as (bl & base & g & _ & _ & H3 & H4 & _). cbn [fst snd] in *.
      destruct (nth_error sa i) as [saved|] eqn:En; [eauto|]. exfalso. apply nth_error_None in En. rewrite H4, map_length in En. rewrite H3, map_length in Ha. lia.
  Qed.
  Lemma lawful_run ops : forall x y, rel x y -> (forall c, In c (flat_map op_code ops) -> code_of (keccak c) = c) -> lawful keccak db x ops = true ->
    exists vs y', xrun keccak code_of db y ops = Some (vs, y').
  Proof.
    induction ops as [|o t IH]; intros x y Hrel Hc Hl; [cbn; eauto|]. cbn [lawful xrun flat_map] in *. apply andb_true_iff in Hl as [Ha Hl].
    destruct (allowed_step x y o Hrel Ha) as (v & y1 & E). rewrite E.
    destruct (step_sim x y o v y1 Hrel ltac:(intros c H; apply Hc; apply in_or_app; now left) E) as (x1 & E1 & Hrel1). rewrite E1 in Hl. cbn [snd] in Hl.
    destruct (IH x1 y1 Hrel1 ltac:(intros c H; apply Hc; apply in_or_app; now right) Hl) as (vs & y' & ->). eauto.
  Qed.

  Lemma new_inv : inv ibs_new.
  Proof.
    constructor.
    - intros a. apply st_ok_empty.
    - intros a. change (objx ibs_new a) with (load a). unfold load. destruct (read_account db a) as [c|] eqn:E; (split; [symmetry; exact E|]); cbn [o_current o_initial]; [|discriminate].
      intros c' [= <-] Hne _. destruct Hdb as (_ & D). exact (D a c E Hne).
    - intros h c. cbn. rewrite lookup_empty. discriminate.
  Qed.
  Lemma new_R : R ibs_new (xworld_of db).
  Proof.
    assert (L : forall a, objx ibs_new a = load a) by reflexivity.
    assert (Wo : forall a k, origx (objx ibs_new a) (storage_of ibs_new a) a k = x_original (xworld_of db) a k).
    { intros a k. rewrite L. change (storage_of ibs_new a) with storage_empty. unfold origx. cbn [storage_empty st_committed]. rewrite lookup_empty.
      unfold load. cbn [xworld_of x_original]. destruct (read_account db a); [|reflexivity]. unfold defx. cbn. now rewrite N.eqb_refl. }
    apply R_make; [|reflexivity|reflexivity|reflexivity]. constructor; try reflexivity.
    - intros a. rewrite L. unfold load. cbn [xworld_of x_acct]. now destruct (read_account db a).
    - intros a k. change (x_current (xworld_of db) a k) with (x_original (xworld_of db) a k). rewrite <- Wo. change (storage_of ibs_new a) with storage_empty. unfold curx. cbn [storage_empty st_current]. now rewrite lookup_empty.
    - exact Wo.
  Qed.

  Theorem exact_refines ops vs y' : (forall c, In c (flat_map op_code ops) -> code_of (keccak c) = c) ->
    xrun keccak code_of db (xworld_of db, []) ops = Some (vs, y') ->
    exists x', crun keccak db (ibs_new, []) ops = (vs, x') /\ rel x' y'.
  Proof. exact (run_sim ops (ibs_new, []) _ vs y' (rel_fresh _ _ new_inv new_R)). Qed.
  Lemma exact_runs ops : (forall c, In c (flat_map op_code ops) -> code_of (keccak c) = c) -> lawful keccak db (ibs_new, []) ops = true ->
    exists vs y', xrun keccak code_of db (xworld_of db, []) ops = Some (vs, y').
  Proof. exact (lawful_run ops (ibs_new, []) _ (rel_fresh _ _ new_inv new_R)). Qed.
End Proofs.
