(** C30: proofs about Blockchain::insert_block. *)
From stdpp Require Import gmap.
From Verif Require Import Base BaseFacts BlockchainModel BlockchainSpec.

Section Proofs.
  Context {P S : Type}.
  Notation block := (blk P).
  Notation chain := (chain (P := P) (S := S)).
  Variable hash : block -> bytes.
  Variable exec : S -> block -> option S.
  Variable root : S -> bytes.
  Variable pre : gmap (N * bytes) block -> block -> bool.
  Variable genesis : block.
  Variable gs : S.
  (** the blocks that are submitted; the hash has no collision among them *)
  Variable U : block -> Prop.
  Hypothesis U_genesis : U genesis.
  Hypothesis hash_inj : forall a b, U a -> U b -> hash a = hash b -> a = b.
  Hypothesis genesis_number : b_number genesis = 0.
  Hypothesis genesis_small : b_difficulty genesis < 2 ^ 256.

  Notation valid_chain := (valid_chain hash exec genesis gs).
  (** valid chains with the stack of states before each block *)
  Inductive vch : list block -> S -> N -> list (N * S) -> Prop :=
  | vch_genesis : vch [genesis] gs (b_difficulty genesis) []
  | vch_next p l s d u b s' :
      U b -> vch (p :: l) s d u -> b_number b = b_number p + 1 -> b_parent b = hash p -> exec s b = Some s' ->
      vch (b :: p :: l) s' (d + b_difficulty b) ((b_number b, s) :: u).

  Lemma vch_valid l s d u : vch l s d u -> valid_chain l s d.
  Proof. induction 1; econstructor; eauto. Qed.
  Lemma valid_vch l s d : valid_chain l s d -> Forall U l -> exists u, vch l s d u.
  Proof.
    induction 1 as [|p l s d b s' _ IH Hn Hp He]; intros HU; [exists []; constructor|].
    apply List.Forall_cons_iff in HU as [Hb HU]. destruct (IH HU) as [u Hu].
    eexists; econstructor; eauto.
  Qed.
  Lemma vch_U l s d u : vch l s d u -> Forall U l.
  Proof. induction 1; constructor; auto. Qed.

  Lemma vch_number l s d u : vch l s d u -> forall b t, l = b :: t -> b_number b = N.of_nat (length t).
  Proof.
    induction 1 as [|p l s d u b s' Hub H IH Hn Hp He]; intros x t [= <- <-]; [exact genesis_number|].
    rewrite Hn, (IH _ _ eq_refl). cbn [length]. lia.
  Qed.

  Lemma vch_det l s d u : vch l s d u -> forall s' d' u', vch l s' d' u' -> s = s' /\ d = d' /\ u = u'.
  Proof.
    induction 1 as [|p l s d u b s1 Hub H IH Hn Hp He]; intros s' d' u' H'.
    - inversion H'; auto.
    - inversion H' as [|p0 l0 s0 d0 u0 b0 s0' Hub0 H0 Hn0 Hp0 He0]; subst.
      destruct (IH _ _ _ H0) as (-> & -> & ->). rewrite He in He0. now injection He0 as ->.
  Qed.

  (** the head determines the chain *)
  Lemma vch_tail l s d u : vch l s d u -> forall b t t' s' d' u', l = b :: t -> vch (b :: t') s' d' u' -> t = t'.
  Proof.
    induction 1 as [|p l s d u b s1 Hub H IH Hn Hp He]; intros x t t' s' d' u' [= <- <-] H'.
    - inversion H' as [|p0 l0 s0 d0 u0 b0 s0' Hub0 H0 Hn0 Hp0 He0]; subst; [easy|].
      rewrite genesis_number in Hn0. lia.
    - inversion H' as [|p0 l0 s0 d0 u0 b0 s0' Hub0 H0 Hn0 Hp0 He0]; subst.
      + rewrite genesis_number in Hn. lia.
      + rewrite Hp in Hp0. apply hash_inj in Hp0 as <-.
        2, 3: eapply List.Forall_inv, vch_U; eassumption. f_equal. eapply IH; eauto.
  Qed.

  Lemma vch_suffix x z s d u : vch (x ++ z) s d u -> z <> [] -> exists s' d' u', vch z s' d' u'.
  Proof.
    revert s d u. induction x as [|b x IH]; intros s d u H Hz; [now exists s, d, u|].
    inversion H as [Hb|p l s0 d0 u0 b0 s' Hub0 H0 Hn Hp He]; subst.
    - destruct x; [now destruct z|discriminate].
    - destruct x as [|q x]; cbn in *.
      + subst. now exists s0, d0, u0.
      + match goal with H : _ = q :: x ++ z |- _ => rewrite H in H0 end. now apply (IH _ _ _ H0).
  Qed.

  Lemma vch_last l s d u : vch l s d u -> exists t, l = t ++ [genesis].
  Proof.
    induction 1 as [|p l s d u b s' Hub H [t IH] Hn Hp He]; [now exists []|].
    exists (b :: t). now rewrite IH.
  Qed.

  Lemma vch_nonempty l s d u : vch l s d u -> l <> [].
  Proof. now destruct 1. Qed.

  Lemma vch_applied l s d u : vch l s d u -> Forall (fun x => fst x < N.of_nat (length l)) u.
  Proof.
    induction 1 as [|p l s d u b s' Hub H IH Hn Hp He]; [constructor|].
    assert (E : b_number p = N.of_nat (length l)) by (eapply vch_number; eauto).
    constructor; [cbn [fst length]; lia|].
    eapply List.Forall_impl; [|exact IH]. cbn [length]. lia.
  Qed.

  Definition stored (c : chain) (b : block) : Prop := c_blocks c !! (b_number b, hash b) = Some b.

  (** ** canonical hashes *)
  Definition canon (c : chain) (cl : list block) : Prop := c_canonical c = rev (map hash cl).

  Lemma canon_lookup c x b t s d u :
    canon c (x ++ b :: t) -> vch (b :: t) s d u -> canonical_hash c (b_number b) = Some (hash b).
  Proof.
    intros Hc Hv. unfold canonical_hash. rewrite Hc, (vch_number _ _ _ _ Hv _ _ eq_refl), Nat2N.id.
    rewrite map_app, rev_app_distr. cbn [map rev]. rewrite <- app_assoc.
    rewrite lookup_app_r by (rewrite rev_length, map_length; lia).
    rewrite rev_length, map_length, Nat.sub_diag. reflexivity.
  Qed.

  Lemma canon_split c cl s d u b s' d' u' t :
    canon c cl -> vch cl s d u -> vch (b :: t) s' d' u' -> canonical_hash c (b_number b) = Some (hash b) ->
    exists x, cl = x ++ b :: t.
  Proof.
    intros Hc Hv Hb Hl. unfold canonical_hash in Hl. rewrite Hc in Hl.
    apply elem_of_list_lookup_2 in Hl. rewrite elem_of_list_In, <- in_rev, in_map_iff in Hl.
    destruct Hl as (b' & E & Hin). apply hash_inj in E as ->.
    2:{ pose proof (vch_U _ _ _ _ Hv) as HU. rewrite List.Forall_forall in HU. auto. }
    2:{ eapply List.Forall_inv, vch_U; eassumption. }
    apply in_split in Hin as (x & t' & ->). exists x. do 2 f_equal.
    destruct (vch_suffix _ _ _ _ _ Hv) as (s1 & d1 & u1 & H1); [discriminate|].
    eapply vch_tail; [exact H1|reflexivity|exact Hb].
  Qed.

  Lemma current_canon c cl s d u : canon c cl -> vch cl s d u -> current_block c + 1 = N.of_nat (length cl).
  Proof.
    intros Hc Hv. unfold current_block. rewrite Hc, rev_length, map_length.
    apply vch_nonempty in Hv. destruct cl; [easy|]. cbn [length]. lia.
  Qed.

  Lemma sub1 n : 1 <= n < 2 ^ 64 -> (n + 2 ^ 64 - 1) mod 2 ^ 64 = n - 1.
  Proof.
    intros H. replace (n + 2 ^ 64 - 1) with (n - 1 + 1 * 2 ^ 64) by lia.
    rewrite N.mod_add by discriminate. apply N.mod_small. lia.
  Qed.

  Lemma ancestor_ok c cl s d u fuel :
    canon c cl -> vch cl s d u ->
    forall l s' d' u', vch l s' d' u' -> Forall (stored c) (tl l) -> (length l <= fuel)%nat -> N.of_nat (length l) < 2 ^ 64 ->
    forall b t, l = b :: t ->
    exists x y z, cl = x ++ z /\ l = y ++ z /\ z <> [] /\ canonical_ancestor fuel c b (hash b) = Done (N.of_nat (length z) - 1)
      /\ (canonical_hash c (b_number b) <> Some (hash b) -> y <> []).
  Proof.
    intros Hc Hv. induction fuel as [|fuel IH]; intros l s' d' u' Hl Hst Hf Hlen b t ->; [cbn in Hf; lia|].
    cbn [canonical_ancestor]. case_bool_decide as E.
    - destruct (canon_split _ _ _ _ _ _ _ _ _ _ Hc Hv Hl E) as [x ->].
      exists x, [], (b :: t). split; [reflexivity|]. split; [reflexivity|]. split; [discriminate|]. split; [|contradiction].
      rewrite (vch_number _ _ _ _ Hl _ _ eq_refl). f_equal. cbn [length]. lia.
    - inversion Hl as [|p l s0 d0 u0 b0 s0' Hub0 H0 Hn Hp He]; subst.
      + exfalso. apply E. destruct (vch_last _ _ _ _ Hv) as [x ->].
        eapply canon_lookup; [exact Hc|]. apply vch_genesis.
      + assert (Hbn : b_number b = N.of_nat (length (p :: l))) by exact (vch_number _ _ _ _ Hl b _ eq_refl).
        cbn [tl length] in *. apply List.Forall_cons_iff in Hst as [Hsp Hst].
        rewrite sub1 by lia. rewrite Hn, N.add_sub, Hp, Hsp.
        destruct (IH _ _ _ _ H0 Hst ltac:(cbn [length]; lia) ltac:(cbn [length]; lia) p l eq_refl) as (x & y & z & -> & E2 & Hz & Ha & _).
        exists x, (b :: y), z. split; [reflexivity|]. split; [rewrite E2; reflexivity|]. split; [exact Hz|]. split; [exact Ha|discriminate].
  Qed.

  (** ** unwinding and executing *)
  Lemma set_state_id (c : chain) : set_state c (c_state c) (c_applied c) = c. Proof. now destruct c. Qed.
  Lemma set_state_twice (c : chain) s l s' l' : set_state (set_state c s l) s' l' = set_state c s' l'. Proof. reflexivity. Qed.

  Lemma unwind_ok (c : chain) x z s d u sz dz uz n :
    vch (x ++ z) s d u -> vch z sz dz uz -> c_state c = s -> c_applied c = u -> n + 1 = N.of_nat (length (x ++ z)) ->
    unwind_last (length x) c n = Done (set_state c sz uz).
  Proof.
    revert c s d u n. induction x as [|b x IH]; intros c s d u n Hv Hz Hs Hu Hn.
    - cbn in Hv. destruct (vch_det _ _ _ _ Hv _ _ _ Hz) as (-> & -> & ->). cbn. subst. now rewrite set_state_id.
    - cbn [length unwind_last]. cbn in Hv.
      inversion Hv as [Hb|p l s0 d0 u0 b0 s' Hub0 H0 Hbn Hp He]; subst.
      + destruct x; [|discriminate]. cbn in *. subst. now apply vch_nonempty in Hz.
      + match goal with H : ((b_number b, s0) :: u0) = _ |- _ => rewrite <- H end.
        match goal with H : p :: l = _ |- _ => rewrite H in H0 end.
        assert (E : b_number b = N.of_nat (length (x ++ z))).
        { eapply vch_number; [exact Hv|reflexivity]. }
        cbn [app length] in Hn. rewrite (proj2 (N.eqb_eq _ _)) by lia.
        rewrite (IH (set_state c s0 u0) s0 d0 u0 (n - 1) H0 Hz eq_refl eq_refl). { now rewrite set_state_twice. }
        destruct (x ++ z) eqn:Ex; [now apply vch_nonempty in H0|]. cbn [length] in *. lia.
  Qed.

  Lemma unwind_changes_ok (c : chain) x z s d u sz dz uz a n :
    vch (x ++ z) s d u -> vch z sz dz uz -> c_state c = s -> c_applied c = u ->
    a + 1 = N.of_nat (length z) -> n + 1 = N.of_nat (length (x ++ z)) ->
    unwind_last_changes c a n = Done (set_state c sz uz).
  Proof.
    intros Hv Hz Hs Hu Ha Hn. unfold unwind_last_changes. rewrite app_length in Hn.
    rewrite (proj2 (N.leb_le _ _)) by lia. replace (N.to_nat (n - a)) with (length x) by lia.
    eapply unwind_ok; eauto. rewrite app_length. lia.
  Qed.

  (** A list of blocks, newest first, linked on top of [z]. *)
  Fixpoint linked (y z : list block) : Prop :=
    match y with
    | [] => True
    | b :: y' => match y' ++ z with p :: _ => U b /\ b_number b = b_number p + 1 /\ b_parent b = hash p | [] => False end /\ linked y' z
    end.
  Lemma vch_linked y z s d u : vch (y ++ z) s d u -> z <> [] -> linked y z.
  Proof.
    revert s d u. induction y as [|b y IH]; intros s d u H Hz; [exact I|]. cbn [linked].
    cbn [app] in H. remember (y ++ z) as t eqn:Et.
    inversion H as [Hb|p l s0 d0 u0 b0 s' Hub0 H0 Hn Hp He]; subst t.
    - destruct y; [now destruct z|discriminate].
    - split; [easy|]. match goal with H : p :: l = _ |- _ => rewrite H in H0 end. eauto.
  Qed.
  Lemma linked_app y1 y2 z : linked (y1 ++ y2) z <-> linked y1 (y2 ++ z) /\ linked y2 z.
  Proof.
    induction y1 as [|b y1 IH]; cbn [app linked]; [tauto|]. rewrite IH, <- app_assoc. tauto.
  Qed.
  Lemma linked_number y z s d u b : vch z s d u -> linked (b :: y) z -> b_number b = N.of_nat (length (y ++ z)).
  Proof.
    intros Hz. revert b. induction y as [|q y IH]; intros b; cbn [linked app].
    - destruct z as [|p z]; [easy|]. intros [(_ & Hn & _) _]. rewrite Hn, (vch_number _ _ _ _ Hz _ _ eq_refl). cbn [length]. lia.
    - intros [(_ & Hn & _) Hl]. rewrite Hn, (IH q Hl). cbn [length]. lia.
  Qed.

  Lemma existsb_none l s d u n : vch l s d u -> N.of_nat (length l) <= n -> existsb (fun x => fst x =? n) u = false.
  Proof.
    intros Hv Hn. apply vch_applied in Hv. induction Hv as [|x u Hx Hu IH]; [reflexivity|].
    cbn [existsb]. rewrite IH, (proj2 (N.eqb_neq _ _)) by lia. reflexivity.
  Qed.

  Lemma execute_ok (c : chain) b l p t s d u check :
    l = p :: t -> U b -> vch l s d u -> c_state c = s -> c_applied c = u -> b_number b = b_number p + 1 -> b_parent b = hash p ->
    (exists s', vch (b :: l) s' (d + b_difficulty b) ((b_number b, s) :: u) /\ execute_block exec root c b check = Done (true, set_state c s' ((b_number b, s) :: u))
       /\ exec s b = Some s' /\ (check = true -> root s' = b_root b))
    \/ execute_block exec root c b check = Done (false, c)
       /\ match exec s b with None => True | Some s' => check = true /\ root s' <> b_root b end.
  Proof.
    intros -> HUb Hv Hs Hu Hn Hp. unfold execute_block. rewrite Hs, Hu.
    destruct (exec s b) as [s'|] eqn:He; [|now right].
    rewrite (existsb_none _ _ _ _ _ Hv) by (rewrite Hn, (vch_number _ _ _ _ Hv _ _ eq_refl); cbn [length]; lia).
    destruct (check && negb (bytes_eqb (root s') (b_root b))) eqn:E.
    - right. split; [reflexivity|]. apply andb_true_iff in E as [-> E]. split; [reflexivity|].
      intros Er. rewrite Er in E. rewrite (proj2 (bytes_eqb_eq _ _) eq_refl) in E. discriminate.
    - left. exists s'. split; [now econstructor|]. split; [reflexivity|]. split; [reflexivity|].
      intros ->. cbn in E. apply negb_false_iff in E. now apply bytes_eqb_eq.
  Qed.

  Notation with_hash := (fun b : block => (b, hash b)).

  (** Executing a list of linked blocks (given newest first) on top of [z]. *)
  Lemma execute_all_ok y : forall (c : chain) z s d u check,
    vch z s d u -> c_state c = s -> c_applied c = u -> linked y z ->
    exists ok k y1 y2 s1 d1 u1, y = y2 ++ y1 /\ k = N.of_nat (length y1) /\ vch (y1 ++ z) s1 d1 u1 /\
      execute_all exec root c (map with_hash (rev y)) check = Done (ok, k, set_state c s1 u1)
      /\ (if ok : bool then y2 = [] /\ (check = true -> forall b y', y = b :: y' -> root s1 = b_root b)
          else exists b y3, y2 = y3 ++ [b] /\ match exec s1 b with None => True | Some s' => check = true /\ root s' <> b_root b end).
  Proof.
    induction y as [|b y IH] using rev_ind; intros c z s d u check Hz Hs Hu Hl.
    - exists true, 0, [], [], s, d, u. split; [easy|]. split; [easy|]. split; [easy|]. split; [|split; [easy|discriminate]].
      cbn. subst. now rewrite set_state_id.
    - apply linked_app in Hl as [Hl1 Hl2]. rewrite rev_unit. cbn [map execute_all].
      cbn [linked app] in Hl2. destruct z as [|p t]; [easy|]. destruct Hl2 as [(HUb & Hn & Hp) _].
      destruct (execute_ok c b _ p t s d u check eq_refl HUb Hz Hs Hu Hn Hp) as [(s' & Hv' & He & _ & Hrt)|[He Hb]]; rewrite He; cbn [bind].
      + destruct (IH (set_state c s' ((b_number b, s) :: u)) (b :: p :: t) s' _ _ check Hv' eq_refl eq_refl Hl1)
          as (ok & k & y1 & y2 & s1 & d1 & u1 & -> & -> & H1 & E & Hok).
        assert (Hok' : if ok : bool then y2 = [] /\ (check = true -> forall b0 y', (y2 ++ y1) ++ [b] = b0 :: y' -> root s1 = b_root b0)
          else exists b y3, y2 = y3 ++ [b] /\ match exec s1 b with None => True | Some s' => check = true /\ root s' <> b_root b end).
        { destruct ok; [|exact Hok]. destruct Hok as [-> Hok]. split; [reflexivity|]. intros Hc b0 y' Ey. destruct y1 as [|b1 y1].
          - injection Ey as <- _. destruct (vch_det _ _ _ _ H1 _ _ _ Hv') as (-> & _). now apply Hrt.
          - injection Ey as <- _. now apply (Hok Hc b1 y1). }
        exists ok, (N.of_nat (length y1) + 1), (y1 ++ [b]), y2, s1, d1, u1.
        split; [now rewrite app_assoc|]. split; [rewrite app_length; cbn [length]; lia|].
        split; [now rewrite <- app_assoc|]. split; [|exact Hok']. cbv beta iota.
        match goal with |- context [execute_all exec root ?cc ?ll check] => change ll with (map with_hash (rev (y2 ++ y1))) end.
        rewrite E. cbn [bind]. now rewrite set_state_twice.
      + exists false, 0, [], (y ++ [b]), s, d, u. split; [now rewrite app_nil_r|]. split; [easy|]. split; [easy|].
        split; [subst; now rewrite set_state_id|]. exists b, y. split; [easy|exact Hb].
  Qed.

  Lemma collect_ok (c : chain) y : forall z n h p zt acc, z = p :: zt ->
    linked y z -> Forall (stored c) y -> (exists s d u, vch z s d u) ->
    match y ++ z with b :: _ => n = b_number b /\ h = hash b | [] => False end ->
    collect (length y) c n h acc = Done (map with_hash (rev y) ++ acc).
  Proof.
    induction y as [|b y IH]; intros z n h p zt acc -> Hl Hst Hz Hh; [reflexivity|].
    cbn [app] in Hh. destruct Hh as [-> ->]. cbn [length collect]. apply List.Forall_cons_iff in Hst as [Hb Hst]. rewrite Hb.
    cbn [linked] in Hl. destruct Hl as [Hl Hl']. rewrite (IH (p :: zt) _ _ p zt _ eq_refl Hl' Hst Hz).
    - cbn [rev]. rewrite map_app, <- app_assoc. reflexivity.
    - destruct (y ++ p :: zt); [easy|]. destruct Hl as (_ & -> & ->). split; [lia|reflexivity].
  Qed.

  Lemma re_execute_ok x : forall (c : chain) z cl s d u sz dz uz n,
    vch (x ++ z) s d u -> vch z sz dz uz -> c_state c = sz -> c_applied c = uz -> canon c cl -> (exists w sw dw uw, cl = w ++ x ++ z /\ vch cl sw dw uw) ->
    Forall (stored c) x -> n = N.of_nat (length z) ->
    re_execute exec root (length x) c n = Done (set_state c s u).
  Proof.
    induction x as [|b x IH] using rev_ind; intros c z cl s d u sz dz uz n Hv Hz Hs Hu Hc (w & sw & dw & uw & Hw & Hcl) Hst Hn.
    - cbn in *. destruct (vch_det _ _ _ _ Hv _ _ _ Hz) as (-> & -> & ->). subst. now rewrite set_state_id.
    - rewrite app_length. cbn [length]. replace (length x + 1)%nat with (Datatypes.S (length x)) by lia. cbn [re_execute].
      rewrite <- app_assoc in *. cbn [app] in *.
      destruct (vch_suffix _ _ _ _ _ Hv) as (s1 & d1 & u1 & H1); [discriminate|].
      assert (Hbn : b_number b = n) by (rewrite Hn; eapply vch_number; [exact H1|reflexivity]).
      assert (Hlk : canonical_hash c n = Some (hash b)).
      { rewrite <- Hbn. rewrite Hw, app_assoc in Hc. eapply canon_lookup; eauto. }
      rewrite Hlk. apply Forall_app in Hst as [Hst Hsb]. apply List.Forall_cons_iff in Hsb as [Hsb _].
      unfold stored in Hsb. rewrite Hbn in Hsb. rewrite Hsb.
      destruct (vch_linked [b] z _ _ _ H1) as [Hl _]; [eapply vch_nonempty; eauto|]. cbn [app] in Hl.
      destruct z as [|p t]; [easy|]. destruct Hl as (HUb & Hl1 & Hl2).
      destruct (execute_ok c b _ p t sz dz uz false eq_refl HUb Hz Hs Hu Hl1 Hl2) as [(s' & Hv' & He & _)|[He Hb]].
      + rewrite He. cbn [bind].
        rewrite (IH (set_state c s' ((b_number b, sz) :: uz)) (b :: p :: t) cl s d u s' _ _ (n + 1) Hv Hv' eq_refl eq_refl Hc).
        * now rewrite set_state_twice.
        * now exists w, sw, dw, uw.
        * exact Hst.
        * rewrite Hn. cbn [length]. lia.
      + exfalso. inversion H1 as [|p0 l0 s0 d0 u0 b0 s0' Hub0 H0 Hn0 Hp0 He0]; subst.
        destruct (vch_det _ _ _ _ H0 _ _ _ Hz) as (-> & -> & ->). rewrite He0 in Hb. destruct Hb; discriminate.
  Qed.

  (** ** the canonical list *)
  Lemma decanonize_ok x : forall (c : chain) z n, canon c (x ++ z) -> n + 1 = N.of_nat (length (x ++ z)) -> z <> [] ->
    exists c', decanonize_down (length x) c n = c' /\ canon c' z /\ c' = set_canonical c (rev (map hash z)).
  Proof.
    induction x as [|b x IH]; intros c z n Hc Hn Hz.
    - exists c. split; [easy|]. split; [easy|]. cbn in Hc. rewrite <- Hc. now destruct c.
    - cbn [length decanonize_down].
      assert (E : decanonize c n = set_canonical c (rev (map hash (x ++ z)))).
      { unfold decanonize. rewrite Hc. cbn [app map rev]. f_equal.
        cbn [app length] in Hn.
        rewrite firstn_app. replace (N.to_nat n) with (length (rev (map hash (x ++ z)))) by (rewrite rev_length, map_length; lia).
        rewrite firstn_all, Nat.sub_diag. cbn [firstn]. rewrite app_nil_r.
        replace (_ - _)%nat with O by (rewrite app_length; cbn [length]; lia). cbn [repeat]. now rewrite app_nil_r. }
      rewrite E. destruct (IH (set_canonical c (rev (map hash (x ++ z)))) z (n - 1)) as (c' & H1 & H2 & H3).
      + reflexivity.
      + cbn [app length] in Hn. destruct (x ++ z) eqn:Ex; [destruct x; cbn in Ex; [now subst|discriminate]|]. cbn [length] in *. lia.
      + exact Hz.
      + exists c'. split; [exact H1|]. split; [exact H2|]. rewrite H3. reflexivity.
  Qed.

  Lemma canonize_ok y : forall (c : chain) z s d u, canon c z -> vch z s d u -> linked y z ->
    fold_left (fun c x => canonize c (b_number (fst x)) (snd x)) (map with_hash (rev y)) c = set_canonical c (rev (map hash (y ++ z))).
  Proof.
    induction y as [|b y IH]; intros c z s d u Hc Hz Hl.
    - cbn. rewrite <- Hc. now destruct c.
    - cbn [rev]. rewrite map_app, fold_left_app. cbn [map fold_left fst snd].
      pose proof (linked_number _ _ _ _ _ _ Hz Hl) as Hn. cbn [linked] in Hl. destruct Hl as [_ Hl].
      rewrite (IH c z s d u Hc Hz Hl). unfold canonize. cbn [c_canonical set_canonical].
      rewrite Hn, rev_length, map_length, N.leb_refl, Nat2N.id.
      replace (_ + 1 - _)%nat with 1%nat by lia. cbn [repeat].
      unfold set_canonical. cbn. f_equal.
      rewrite insert_app_r_alt by (rewrite rev_length, map_length; lia).
      now rewrite rev_length, map_length, Nat.sub_diag.
  Qed.

  (** ** the invariant *)
  Notation accepted := (accepted genesis).
  Notation work := (work genesis).
  Record Inv (h : list (call (P := P))) (c : chain) (cl : list block) (d : N) : Prop := mkInv {
    i_canon : canon c cl;
    i_chain : vch cl (c_state c) d (c_applied c);
    i_stored : Forall (stored c) cl;
    i_blocks : forall n x b, c_blocks c !! (n, x) = Some b -> n = b_number b /\ x = hash b /\ accepted h b /\ b_number b <= N.of_nat (length h)
       /\ exists l s d' u, vch (b :: l) s d' u /\ Forall (stored c) l /\ c_difficulty c !! (n, x) = Some d' /\ d' <= d /\ d' <= work h;
    i_accepted : forall b, accepted h b -> stored c b;
    i_bad : forall x, x ∈ c_bad c -> exists b, U b /\ hash b = x /\ refused h b
  }.

  Lemma work_app h k : work (h ++ [k]) = work h + b_difficulty (k_block k).
  Proof. unfold BlockchainSpec.work. rewrite fold_right_app. cbn [fold_right]. induction h as [|x h IH]; cbn [fold_right]; lia. Qed.

  Lemma accepted_app h (k : call (P := P)) b : accepted (h ++ [k]) b <-> accepted h b \/ (k_block k = b /\ k_ok k = true).
  Proof.
    unfold BlockchainSpec.accepted. split.
    - intros [->|(k' & Hin & Hb & Hk)]; [now left; left|]. apply in_app_or in Hin as [Hin|[->|[]]]; [|now right].
      left. right. now exists k'.
    - intros [[->|(k' & Hin & Hb & Hk)]|[Hb Hk]]; [now left| |].
      + right. exists k'. split; [apply in_or_app; now left|easy].
      + right. exists k. split; [apply in_or_app; right; now left|easy].
  Qed.
  Lemma refused_app h (k : call (P := P)) b : refused h b \/ (k_block k = b /\ k_ok k = false) -> refused (h ++ [k]) b.
  Proof.
    intros [(k' & Hin & Hb & Hk)|[Hb Hk]].
    - exists k'. split; [apply in_or_app; now left|easy].
    - exists k. split; [apply in_or_app; right; now left|easy].
  Qed.

  Lemma Inv_start : Inv [] (start hash genesis gs) [genesis] (b_difficulty genesis).
  Proof.
    assert (Hs : stored (start hash genesis gs) genesis).
    { unfold stored, start, canonize, store_block. cbn. now rewrite lookup_insert. }
    constructor.
    - unfold canon, start, canonize, store_block. cbn. rewrite genesis_number. reflexivity.
    - apply vch_genesis.
    - repeat constructor. exact Hs.
    - intros n x b. unfold start, canonize, store_block. cbn [c_blocks c_difficulty set_canonical].
      destruct (decide ((b_number genesis, hash genesis) = (n, x))) as [[= <- <-]|E].
      + rewrite lookup_insert. intros [= <-]. split; [reflexivity|]. split; [reflexivity|]. split; [now left|].
        split; [rewrite genesis_number; apply N.le_0_l|].
        exists [], gs, (b_difficulty genesis), []. split; [apply vch_genesis|]. split; [constructor|].
        split; [|split; [apply N.le_refl|apply N.le_refl]].
        rewrite lookup_insert, genesis_number. f_equal. cbn [N.eqb]. rewrite N.add_0_l. apply N.mod_small. exact genesis_small.
      + rewrite lookup_insert_ne by exact E. rewrite lookup_empty. discriminate.
    - intros b [->|(k & [] & _)]. exact Hs.
    - intros x. cbn. intros Hx. now apply elem_of_empty in Hx.
  Qed.

  Lemma Inv_refuse h c cl d b check : Inv h c cl d -> Inv (h ++ [mkCall b check false]) c cl d.
  Proof.
    intros [H1 H2 H3 H4 H5 H6]. constructor; try assumption.
    - intros n x b' Hb. destruct (H4 _ _ _ Hb) as (E1 & E2 & Ha & Hn & l & s & d' & u & Hv & Hst & Hd & Hle & Hw).
      split; [exact E1|]. split; [exact E2|]. split; [apply accepted_app; now left|].
      split; [rewrite app_length; cbn [length]; lia|].
      exists l, s, d', u. rewrite work_app. repeat (split; [assumption|]). lia.
    - intros b' Ha. apply accepted_app in Ha as [Ha|[_ Ha]]; [auto|discriminate].
    - intros x Hx. destruct (H6 x Hx) as (b' & HU' & E & Hr). exists b'. split; [exact HU'|]. split; [exact E|]. apply refused_app. now left.
  Qed.

  Lemma Inv_add_bad h c cl d b check :
    U b -> Inv h c cl d -> Inv (h ++ [mkCall b check false]) (add_bad c (hash b)) cl d.
  Proof.
    intros HUb H. apply (Inv_refuse _ _ _ _ b check) in H as [H1 H2 H3 H4 H5 H6]. constructor; try assumption.
    intros x Hx. cbn in Hx. apply elem_of_union in Hx as [Hx|Hx]; [|auto].
    apply elem_of_singleton in Hx as ->. exists b. split; [exact HUb|]. split; [reflexivity|]. apply refused_app. now right.
  Qed.

  Lemma stored_after (c : chain) b b' : U b -> U b' -> stored c b' -> stored (store_block c b (hash b)) b'.
  Proof.
    unfold stored, store_block. cbn [c_blocks]. intros HU HU' H.
    destruct (decide ((b_number b, hash b) = (b_number b', hash b'))) as [E|E].
    - injection E as _ E. apply hash_inj in E as ->; [|assumption|assumption]. now rewrite lookup_insert.
    - now rewrite lookup_insert_ne.
  Qed.
  Lemma stored_all (c : chain) b l : U b -> Forall U l -> Forall (stored c) l -> Forall (stored (store_block c b (hash b))) l.
  Proof.
    rewrite !List.Forall_forall. intros HU Hl H x Hx. apply stored_after; auto.
  Qed.
  Lemma stored_new (c : chain) b : stored (store_block c b (hash b)) b.
  Proof. unfold stored, store_block. cbn [c_blocks]. now rewrite lookup_insert. Qed.

  (** Storing a block which extends a stored one; [cl'], [d'] the canonical chain afterwards. *)
  Lemma Inv_store h c cl d b check p l s dp u s' cl' d' :
    Inv h c cl d -> stored c p -> Forall (stored c) l -> vch (p :: l) s dp u -> vch (b :: p :: l) s' (dp + b_difficulty b) ((b_number b, s) :: u) ->
    work (h ++ [mkCall b check true]) < 2 ^ 256 ->
    (cl' = cl /\ d' = d /\ dp + b_difficulty b <= d \/ cl' = b :: p :: l /\ d' = dp + b_difficulty b /\ d <= d') ->
    forall st ap, vch cl' st d' ap ->
    Inv (h ++ [mkCall b check true]) (set_state (set_canonical (store_block c b (hash b)) (rev (map hash cl'))) st ap) cl' d'.
  Proof.
    intros [H1 H2 H3 H4 H5 H6] Hp Hl Hvp Hvb Hw Hcl st ap Hst.
    destruct (H4 _ _ _ Hp) as (_ & _ & Hpa & Hpn & lp & sp & dp' & up & Hvp' & Hlp & Hdp & Hdp1 & Hdp2).
    pose proof (vch_tail _ _ _ _ Hvp _ _ _ _ _ _ eq_refl Hvp') as <-.
    destruct (vch_det _ _ _ _ Hvp _ _ _ Hvp') as (<- & <- & <-).
    inversion Hvb as [|p0 l0 s0 d0 u0 b0 s0' Hub0 H0 Hn0 Hp0 He0]; subst. clear H0.
    rewrite work_app in *. cbn [k_block] in *.
    pose proof (vch_U _ _ _ _ Hvp) as HUp. apply List.Forall_cons_iff in HUp as [HUp HUl].
    pose proof (vch_U _ _ _ _ H2) as HUcl.
    assert (HU4 : forall n x b', c_blocks c !! (n, x) = Some b' -> U b').
    { intros n x b' Hb'. destruct (H4 _ _ _ Hb') as (_ & _ & _ & _ & lb & sb & db & ub & Hvb' & _).
      eapply List.Forall_inv, vch_U; exact Hvb'. }
    constructor; cbn [c_blocks c_difficulty c_canonical c_bad c_state c_applied set_state set_canonical].
    - reflexivity.
    - exact Hst.
    - destruct Hcl as [(-> & _ & _)|(-> & _ & _)].
      + now apply stored_all.
      + constructor; [apply stored_new|]. constructor; [now apply stored_after|].
        now apply stored_all.
    - intros n x b'. unfold store_block; cbn [c_blocks c_difficulty].
      destruct (decide ((b_number b, hash b) = (n, x))) as [[= <- <-]|E].
      + rewrite !lookup_insert. intros [= <-]. split; [reflexivity|]. split; [reflexivity|].
        split; [apply accepted_app; right; now cbn|]. split; [rewrite app_length; cbn [length]; lia|].
        exists (p :: l), s', (dp + b_difficulty b), ((b_number b, s) :: u). split; [exact Hvb|].
        split; [|split].
        * constructor; [now apply stored_after|]. now apply stored_all.
        * f_equal. rewrite Hn0. rewrite (proj2 (N.eqb_neq _ _)) by lia. rewrite N.add_sub, Hp0, Hdp. cbn [default from_option id].
          apply N.mod_small. lia.
        * rewrite work_app. cbn [k_block]. destruct Hcl as [(_ & -> & Hle)|(_ & -> & Hle)]; lia.
      + rewrite !lookup_insert_ne by exact E. intros Hb.
        destruct (H4 _ _ _ Hb) as (E1 & E2 & Ha & Hn & lb & sb & db & ub & Hvb' & Hlb & Hdb & Hdb1 & Hdb2).
        split; [exact E1|]. split; [exact E2|]. split; [apply accepted_app; now left|]. split; [rewrite app_length; cbn [length]; lia|].
        exists lb, sb, db, ub. split; [exact Hvb'|]. split.
        * apply stored_all; [assumption| |exact Hlb]. apply vch_U in Hvb'. now apply List.Forall_cons_iff in Hvb' as [_ Hvb'].
        * split; [exact Hdb|]. rewrite work_app. cbn [k_block]. destruct Hcl as [(_ & -> & Hle)|(_ & -> & Hle)]; lia.
    - intros b' Ha. apply accepted_app in Ha as [Ha|[Ha _]].
      + apply stored_after; [assumption| |now apply H5]. eapply HU4. exact (H5 _ Ha).
      + cbn in Ha. subst. apply stored_new.
    - intros x Hx. destruct (H6 x Hx) as (b' & HU' & E & Hr). exists b'. split; [exact HU'|]. split; [exact E|]. apply refused_app. now left.
  Qed.

  (** ** insert_block *)
  Lemma insert_ok h c cl d b check :
    U b -> Inv h c cl d -> submittable hash c b -> N.of_nat (length h) + 2 < 2 ^ 64 -> work h + b_difficulty b < 2 ^ 256 ->
    exists ok c' cl' d', insert_block hash exec root pre c b check = Done (ok, c')
      /\ Inv (h ++ [mkCall b check ok]) c' cl' d'
      /\ (ok = false -> cl' = cl /\ d' = d /\ c_state c' = c_state c /\ c_canonical c' = c_canonical c)
      /\ (ok = true -> pre (c_blocks c) b = true /\ exists l s db, valid_chain (b :: l) s db /\ (forall x, In x l -> accepted h x) /\ (check = true -> root s = b_root b) /\ if d <? db then cl' = b :: l /\ d' = db else cl' = cl /\ d' = d)
      /\ (forall p l s dp s', accepted h p -> Forall U l -> valid_chain (p :: l) s dp -> b_number b = b_number p + 1 -> b_parent b = hash p ->
            exec s b = Some s' -> pre (c_blocks c) b = true -> ~ refused h b ->
            (check = true -> forall w x t s1 d1, b :: p :: l = w ++ x :: t -> t <> [] -> valid_chain (x :: t) s1 d1 -> root s1 = b_root x) ->
            ok = true).
  Proof.
    intros HUb HI [Hb64 Hnc] Hlen Hwork. unfold insert_block.
    assert (Href : forall c', Inv (h ++ [mkCall b check false]) c' cl d -> c_state c' = c_state c -> c_canonical c' = c_canonical c ->
      (forall p l s dp s', accepted h p -> Forall U l -> valid_chain (p :: l) s dp -> b_number b = b_number p + 1 -> b_parent b = hash p ->
            exec s b = Some s' -> pre (c_blocks c) b = true -> ~ refused h b ->
            (check = true -> forall w x t s1 d1, b :: p :: l = w ++ x :: t -> t <> [] -> valid_chain (x :: t) s1 d1 -> root s1 = b_root x) ->
            False) ->
      exists ok c'' cl' d', Done (false, c') = Done (ok, c'')
      /\ Inv (h ++ [mkCall b check ok]) c'' cl' d'
      /\ (ok = false -> cl' = cl /\ d' = d /\ c_state c'' = c_state c /\ c_canonical c'' = c_canonical c)
      /\ (ok = true -> pre (c_blocks c) b = true /\ exists l s db, valid_chain (b :: l) s db /\ (forall x, In x l -> accepted h x) /\ (check = true -> root s = b_root b) /\ if d <? db then cl' = b :: l /\ d' = db else cl' = cl /\ d' = d)
      /\ (forall p l s dp s', accepted h p -> Forall U l -> valid_chain (p :: l) s dp -> b_number b = b_number p + 1 -> b_parent b = hash p ->
            exec s b = Some s' -> pre (c_blocks c) b = true -> ~ refused h b ->
            (check = true -> forall w x t s1 d1, b :: p :: l = w ++ x :: t -> t <> [] -> valid_chain (x :: t) s1 d1 -> root s1 = b_root x) ->
            ok = true)).
    { intros c' HI' Es Ec Hno. exists false, c', cl, d. split; [reflexivity|]. split; [exact HI'|].
      split; [intros _; split; [reflexivity|]; split; [reflexivity|]; split; assumption|].
      split; [discriminate|]. intros. exfalso. eapply Hno; eassumption. }
    pose proof HI as [H1 H2 H3 H4 H5 H6].
    destruct (c_blocks c !! ((b_number b + 2 ^ 64 - 1) mod 2 ^ 64, b_parent b)) as [p|] eqn:Ep.
    2:{ cbn [negb]. apply Href; [now apply Inv_refuse|reflexivity|reflexivity|].
        intros p l s dp s' Ha _ Hv Hn Hp _ _ _ _. apply H5 in Ha. unfold stored in Ha.
        destruct (H4 _ _ _ Ha) as (_ & _ & _ & Hpn & _). rewrite sub1 in Ep by lia.
        rewrite Hn, N.add_sub, Hp, Ha in Ep. discriminate. }
    destruct (H4 _ _ _ Ep) as (Epn & Epp & Hpa & Hpn & l & s & dp & u & Hvp & Hlp & Hdp & Hdp1 & Hdp2).
    assert (Hb1 : 1 <= b_number b).
    { destruct (N.eq_dec (b_number b) 0) as [E0|E0]; [|lia]. rewrite E0 in Epn. rewrite N.add_0_l in Epn.
      rewrite N.mod_small in Epn by lia. lia. }
    rewrite sub1 in Ep, Epn, Hdp by lia.
    assert (Hsp : stored c p) by (unfold stored; rewrite <- Epn, <- Epp; exact Ep).
    assert (Hsame : forall l' s' dp', Forall U l' -> valid_chain (p :: l') s' dp' -> l' = l /\ s' = s /\ dp' = dp).
    { intros l' s' dp' HU' Hv. apply valid_vch in Hv as [u' Hv].
      2:{ constructor; [|exact HU']. eapply List.Forall_inv, vch_U; exact Hvp. }
      pose proof (vch_tail _ _ _ _ Hvp _ _ _ _ _ _ eq_refl Hv) as <-.
      destruct (vch_det _ _ _ _ Hvp _ _ _ Hv) as (-> & -> & _). auto. }
    destruct (pre (c_blocks c) b) eqn:Epre; cbn [negb].
    2:{ apply Href; [now apply Inv_refuse|reflexivity|reflexivity|]. intros; discriminate. }
    case_bool_decide as Ebad.
    { apply Href; [now apply Inv_refuse|reflexivity|reflexivity|].
      intros q lq sq dq s' _ _ _ _ _ _ _ Hnr _. apply Hnr.
      destruct (H6 _ Ebad) as (b' & HU' & E & Hr). apply hash_inj in E as ->; assumption. }
    assert (Hbl : N.to_nat (b_number b) = length (p :: l)).
    { cbn [length]. pose proof (vch_number _ _ _ _ Hvp _ _ eq_refl). lia. }
    cbn [canonical_ancestor]. rewrite bool_decide_false by exact Hnc.
    rewrite sub1 by lia. rewrite Ep, Epp.
    destruct (ancestor_ok c cl _ _ _ (N.to_nat (b_number b)) H1 H2 _ _ _ _ Hvp Hlp) with (b := p) (t := l) as (x & y & z & Ecl & El & Hz & Ha & _).
    { rewrite Hbl. reflexivity. }
    { rewrite <- Hbl. lia. }
    { reflexivity. }
    rewrite Ha. cbn [bind]. subst cl.
    assert (Hvy : vch (y ++ z) s dp u) by (rewrite <- El; exact Hvp).
    destruct (vch_suffix _ _ _ _ _ H2 Hz) as (sz & dz & uz & Hvz).
    assert (Hzlen : N.of_nat (length z) - 1 + 1 = N.of_nat (length z)).
    { destruct z; [contradiction|]. cbn [length]. lia. }
    assert (Htip : current_block c + 1 = N.of_nat (length (x ++ z))) by (eapply current_canon; eassumption).
    rewrite (unwind_changes_ok c x z _ _ _ _ _ _ _ _ H2 Hvz eq_refl eq_refl Hzlen Htip). cbn [bind].
    assert (Hly : linked y z) by (eapply vch_linked; eassumption).
    assert (Hn : b_number b = b_number p + 1) by lia.
    assert (Hlb : linked (b :: y) z).
    { cbn [linked]. rewrite <- El. split; [split; [exact HUb|split; assumption]|exact Hly]. }
    assert (Hsty : Forall (stored c) y).
    { assert (HF : Forall (stored c) (y ++ z)) by (rewrite <- El; constructor; assumption). now apply List.Forall_app in HF as [HF _]. }
    assert (Hyz : (length (y ++ z)) = length (p :: l)) by now rewrite El.
    unfold intermediate_chain. rewrite app_length in Hyz.
    rewrite (proj2 (N.ltb_ge _ _)) by lia.
    replace (N.to_nat (b_number b - 1 - (N.of_nat (length z) - 1))) with (length y) by lia.
    destruct z as [|q zt]; [contradiction|].
    rewrite (collect_ok (set_state c sz uz) y (q :: zt) (b_number b - 1) (hash p) q zt [] eq_refl Hly Hsty); cycle 1.
    { exists sz, dz, uz. exact Hvz. }
    { rewrite <- El. split; [lia|reflexivity]. }
    cbn [bind]. rewrite app_nil_r.
    assert (Erev : map (fun b : block => (b, hash b)) (rev y) ++ [(b, hash b)] = map (fun b : block => (b, hash b)) (rev (b :: y))).
    { cbn [rev]. now rewrite map_app. }
    rewrite Erev.
    destruct (execute_all_ok (b :: y) (set_state c sz uz) (q :: zt) sz dz uz check Hvz eq_refl eq_refl Hlb)
      as (ok & k & y1 & y2 & s1 & d1 & u1 & Ey & -> & Hv1 & Eall & Hok).
    rewrite Eall. cbn [bind]. rewrite set_state_twice.
    set (tip := current_block c) in *. set (a := N.of_nat (length (q :: zt)) - 1) in *.
    (* restoring the canonical state from any point on the side chain *)
    assert (Hres : forall cc : chain, c_state cc = s1 -> c_applied cc = u1 -> canon cc (x ++ q :: zt) -> Forall (stored cc) x ->
      bind (unwind_last_changes cc a (a + N.of_nat (length y1))) (fun c0 => re_execute_canonical_chain exec root c0 a tip) = Done (set_state cc (c_state c) (c_applied c))).
    { intros cc Es Eu Hcc Hst.
      assert (Ea : a + N.of_nat (length y1) + 1 = N.of_nat (length (y1 ++ q :: zt))) by (rewrite app_length; lia).
      rewrite (unwind_changes_ok cc y1 (q :: zt) _ _ _ _ _ _ _ _ Hv1 Hvz Es Eu Hzlen Ea). cbn [bind].
      unfold re_execute_canonical_chain. rewrite app_length in Htip.
      rewrite (proj2 (N.leb_le _ _)) by lia. replace (N.to_nat (tip - a)) with (length x) by lia.
      rewrite (re_execute_ok x (set_state cc sz uz) (q :: zt) (x ++ q :: zt) (c_state c) d (c_applied c) sz dz uz (a + 1) H2 Hvz eq_refl eq_refl).
      - now rewrite set_state_twice.
      - exact Hcc.
      - exists [], (c_state c), d, (c_applied c). split; [reflexivity|exact H2].
      - exact Hst.
      - exact Hzlen. }
    assert (Hacc : forall x, In x (p :: l) -> accepted h x).
    { assert (HF : Forall (stored c) (p :: l)) by (constructor; assumption). rewrite List.Forall_forall in HF. intros x0 Hx0. exact (proj1 (proj2 (proj2 (H4 _ _ _ (HF x0 Hx0))))). }
    assert (Hstx : Forall (stored c) x) by (apply List.Forall_app in H3 as [H3 _]; exact H3).
    destruct ok; cbn [negb].
    2:{ rewrite (Hres (add_bad (set_state c s1 u1) (hash b)) eq_refl eq_refl H1 Hstx). cbn [bind].
        assert (Eid : set_state (add_bad (set_state c s1 u1) (hash b)) (c_state c) (c_applied c) = add_bad c (hash b)) by (destruct c; reflexivity).
        rewrite Eid. rewrite <- Epp. apply Href; [now apply Inv_add_bad|reflexivity|reflexivity|].
        intros p' l' s' dp' s'' Ha' HU' Hv' _ Hp' He' _ _ Hroots. rewrite Epp in Hp'. apply hash_inj in Hp' as <-.
        2:{ eapply List.Forall_inv, vch_U; exact Hvp. }
        2:{ apply H5 in Ha'. destruct (H4 _ _ _ Ha') as (_ & _ & _ & _ & lb & sb & db & ub & Hvb' & _).
            eapply List.Forall_inv, vch_U; exact Hvb'. }
        destruct (Hsame _ _ _ HU' Hv') as (-> & -> & ->).
        destruct Hok as (b0 & y3 & E3 & Hb0). subst y2. rewrite <- app_assoc in Ey. cbn [app] in Ey.
        assert (Hx : exists s2 d2 u2, vch (b0 :: y1 ++ q :: zt) s2 d2 u2).
        { assert (Hfull : vch (b :: p :: l) s'' (dp + b_difficulty b) ((b_number b, s) :: u)) by (econstructor; eauto).
          rewrite El in Hfull. change (b :: y ++ q :: zt) with ((b :: y) ++ q :: zt) in Hfull. rewrite Ey in Hfull.
          rewrite <- app_assoc in Hfull. cbn [app] in Hfull. eapply vch_suffix; [exact Hfull|discriminate]. }
        destruct Hx as (s2 & d2 & u2 & Hx). pose proof Hx as Hx0.
        remember (y1 ++ q :: zt) as t eqn:Et.
        inversion Hx as [Hg1 Hg2|p2 l2 s3 d3 u3 b3 s3' Hub0 Hx1 Hn3 Hp3 He3 Hg0].
        - rewrite Et in *. destruct y1; discriminate.
        - match goal with H : p2 :: l2 = t |- _ => rewrite H in Hx1 end. destruct (vch_det _ _ _ _ Hv1 _ _ _ Hx1) as (<- & <- & <-).
          rewrite He3 in Hb0. destruct Hb0 as [Hc Hr]. apply Hr.
          apply (Hroots Hc y3 b0 t s2 d2).
          + rewrite El. change (b :: y ++ q :: zt) with ((b :: y) ++ q :: zt). rewrite Ey, <- app_assoc. cbn [app]. now rewrite Et.
          + rewrite Et. destruct y1; discriminate.
          + eapply vch_valid; exact Hx0. }
    destruct Hok as [Hy2 Hrb]. specialize (fun Hc => Hrb Hc b y eq_refl).
    subst y2. cbn [app] in Ey. subst y1.
    assert (Hbv : b :: p :: l = (b :: y) ++ q :: zt) by (cbn [app]; now rewrite <- El).
    rewrite <- Hbv in Hv1.
    assert (Ed1 : d1 = dp + b_difficulty b /\ u1 = (b_number b, s) :: u).
    { inversion Hv1 as [|p0 l0 s0 d0 u0 b0 s0' Hub0 H0 Hn0 Hp0 He0]; subst.
      destruct (vch_det _ _ _ _ H0 _ _ _ Hvp) as (-> & -> & ->). auto. }
    destruct Ed1 as [-> ->].
    cbn zeta.
    assert (Htl : exists tb tt, x ++ q :: zt = tb :: tt) by (destruct x; eexists; eexists; reflexivity).
    destruct Htl as (tb & tt & Etl).
    assert (Htb : stored c tb) by (rewrite Etl in H3; now inversion H3).
    assert (Htn : b_number tb = tip).
    { rewrite Etl in H2, Htip. rewrite (vch_number _ _ _ _ H2 _ _ eq_refl). cbn [length] in Htip. lia. }
    assert (Htc : canonical_hash (store_block (set_state c s1 ((b_number b, s) :: u)) b (hash b)) tip = Some (hash tb)).
    { rewrite <- Htn. rewrite Etl in H1, H2. exact (canon_lookup c [] tb tt _ _ _ H1 H2). }
    rewrite Htc.
    assert (Htd : c_difficulty c !! (tip, hash tb) = Some d).
    { destruct (H4 _ _ _ Htb) as (_ & _ & _ & _ & lt & st & dt & ut & Hvt & _ & Hdt & _).
      rewrite Htn in Hdt. rewrite Hdt. f_equal. rewrite Etl in H2.
      pose proof (vch_tail _ _ _ _ H2 _ _ _ _ _ _ eq_refl Hvt) as <-.
      now destruct (vch_det _ _ _ _ H2 _ _ _ Hvt) as (_ & -> & _). }
    assert (Hntb : (b_number b, hash b) <> (tip, hash tb)).
    { intros [= E1 E2]. apply Hnc. apply hash_inj in E2 as ->; [|exact HUb|].
      2:{ rewrite Etl in H2. eapply List.Forall_inv, vch_U; exact H2. } rewrite <- Htc, E1. reflexivity. }
    cbn [c_difficulty store_block set_state]. rewrite lookup_insert_ne by exact Hntb. rewrite Htd.
    rewrite lookup_insert. cbn [default from_option id].
    rewrite (proj2 (N.eqb_neq _ _)) by lia. rewrite Hdp. cbn [default from_option id].
    rewrite N.mod_small by lia.
    assert (Hw : work (h ++ [mkCall b check true]) < 2 ^ 256) by (rewrite work_app; exact Hwork).
    destruct (d <? dp + b_difficulty b) eqn:Ecmp.
    - apply N.ltb_lt in Ecmp.
      replace (N.to_nat (tip - a)) with (length x) by (rewrite app_length in Htip; lia).
      destruct (decanonize_ok x (store_block (set_state c s1 ((b_number b, s) :: u)) b (hash b)) (q :: zt) tip H1 Htip Hz) as (c1 & E1 & Hc1 & E2).
      rewrite E1. rewrite (canonize_ok (b :: y) c1 (q :: zt) sz dz uz Hc1 Hvz Hlb). rewrite <- Hbv, E2.
      do 4 eexists. split; [reflexivity|]. split; [|split; [discriminate|]; split].
      + refine (Inv_store h c (x ++ q :: zt) d b check p l s dp u s1 (b :: p :: l) (dp + b_difficulty b) HI Hsp Hlp Hvp Hv1 Hw _ s1 ((b_number b, s) :: u) Hv1).
        right. split; [reflexivity|]. split; [reflexivity|]. lia.
      + intros _. split; [reflexivity|]. exists (p :: l), s1, (dp + b_difficulty b). split; [eapply vch_valid; exact Hv1|]. split; [exact Hacc|]. split; [exact Hrb|].
        rewrite (proj2 (N.ltb_lt _ _)) by lia. split; reflexivity.
      + reflexivity.
    - apply N.ltb_ge in Ecmp.
      rewrite (Hres (store_block (set_state c s1 ((b_number b, s) :: u)) b (hash b)) eq_refl eq_refl H1); cycle 1.
      { refine (stored_all (set_state c s1 ((b_number b, s) :: u)) b x HUb _ Hstx).
        pose proof (vch_U _ _ _ _ H2) as HU'. now apply List.Forall_app in HU' as [HU' _]. }
      cbn [bind]. do 4 eexists. split; [reflexivity|]. split; [|split; [discriminate|]; split].
      + assert (Eid : set_state (store_block (set_state c s1 ((b_number b, s) :: u)) b (hash b)) (c_state c) (c_applied c)
                     = set_state (set_canonical (store_block c b (hash b)) (rev (map hash (x ++ q :: zt)))) (c_state c) (c_applied c)).
        { unfold set_state, set_canonical, store_block. cbn. rewrite H1. reflexivity. }
        rewrite Eid.
        refine (Inv_store h c (x ++ q :: zt) d b check p l s dp u s1 (x ++ q :: zt) d HI Hsp Hlp Hvp Hv1 Hw _ (c_state c) (c_applied c) H2).
        left. split; [reflexivity|]. split; [reflexivity|]. lia.
      + intros _. split; [reflexivity|]. exists (p :: l), s1, (dp + b_difficulty b). split; [eapply vch_valid; exact Hv1|]. split; [exact Hacc|]. split; [exact Hrb|].
        rewrite (proj2 (N.ltb_ge _ _)) by lia. split; reflexivity.
      + reflexivity.
  Qed.

  Lemma history_inv h c : Forall (fun k => U (k_block k)) h -> no_overflow genesis h -> history hash exec root pre genesis gs h c -> exists cl d, Inv h c cl d.
  Proof.
    intros HU Hno Hh. revert HU Hno. induction Hh as [|h c k c' Hh IH Hsub Hk]; intros HU [Hl Hw].
    - exists [genesis], (b_difficulty genesis). apply Inv_start.
    - rewrite app_length in Hl. cbn [length] in Hl. rewrite work_app in Hw.
      apply List.Forall_app in HU as [HU HUk]. apply List.Forall_inv in HUk.
      destruct IH as (cl & d & HI); [exact HU|split; lia|].
      destruct (insert_ok h c cl d (k_block k) (k_check k) HUk HI Hsub) as (ok & c1 & cl' & d' & E & HI' & _); [lia|lia|].
      rewrite Hk in E. injection E as <- <-. exists cl', d'. now destruct k.
  Qed.

  Lemma resubmit h c cl d b check :
    Inv h c cl d -> N.of_nat (length h) + 2 < 2 ^ 64 -> In b cl -> b <> genesis -> pre (c_blocks c) b = true -> ~ refused h b ->
    insert_block hash exec root pre c b check = Throws.
  Proof.
    intros [H1 H2 H3 H4 H5 H6] Hlen Hin Hng Hpre Hnr. apply in_split in Hin as (x & t & ->).
    destruct (vch_suffix _ _ _ _ _ H2) as (sz & dz & uz & Hvz); [discriminate|].
    pose proof (vch_number _ _ _ _ Hvz _ _ eq_refl) as Hbn.
    assert (HUb : U b) by (eapply List.Forall_inv, vch_U; exact Hvz).
    apply List.Forall_app in H3 as [_ H3]. apply List.Forall_cons_iff in H3 as [Hsb H3].
    destruct (H4 _ _ _ Hsb) as (_ & _ & _ & Hbl & _).
    inversion Hvz as [|p l s0 d0 u0 b0 s0' HU0 H0 Hn Hp He]; subst; [contradiction|].
    apply List.Forall_inv in H3. unfold stored in H3.
    unfold insert_block. rewrite sub1 by lia. rewrite Hn, N.add_sub, Hp, H3, Hpre. cbn [negb].
    rewrite bool_decide_false.
    2:{ intros Hbad. apply Hnr. destruct (H6 _ Hbad) as (b' & HU' & E & Hr). apply hash_inj in E as ->; assumption. }
    cbn [canonical_ancestor]. rewrite bool_decide_true by (eapply canon_lookup; eassumption). cbn [bind].
    rewrite (unwind_changes_ok c x (b :: p :: l) _ _ _ _ _ _ _ _ H2 Hvz eq_refl eq_refl).
    - cbn [bind]. unfold intermediate_chain. rewrite (proj2 (N.ltb_lt _ _)) by lia. reflexivity.
    - cbn [length] in *. lia.
    - eapply current_canon; eassumption.
  Qed.
End Proofs.
