(** Blockchain over a buffer changed in place does what Blockchain over values does. *)
From stdpp Require Import gmap.
From Verif Require Import Base BaseFacts BlockchainModel BlockchainSpec BlockchainProofs BlockchainLemmas ChainBufferModel ChainBufferSpec.

(** the tables without the state *)
Definition erase {P S} (c : chain (P := P) (S := S)) : chain (P := P) (S := unit) :=
  mkChain (c_blocks c) (c_difficulty c) (c_canonical c) (c_bad c) tt [].

Section Erase.
  Context {P S : Type}.
  Notation chain := (chain (P := P) (S := S)).
  Lemma ancestor_erase fuel : forall (c : chain) b h, canonical_ancestor fuel (erase c) b h = canonical_ancestor fuel c b h.
  Proof. induction fuel as [|f IH]; intros c b h; [reflexivity|]. cbn [canonical_ancestor]. unfold canonical_hash. cbn. destruct (bool_decide _); [reflexivity|]. destruct (c_blocks c !! _); [apply IH|reflexivity]. Qed.
  Lemma collect_erase k : forall (c : chain) n h acc, collect k (erase c) n h acc = collect k c n h acc.
  Proof. induction k as [|k IH]; intros c n h acc; [reflexivity|]. cbn [collect]. cbn. destruct (c_blocks c !! _); [apply IH|reflexivity]. Qed.
  Lemma intermediate_erase (c : chain) n h a : intermediate_chain (erase c) n h a = intermediate_chain c n h a.
  Proof. unfold intermediate_chain. now rewrite collect_erase. Qed.
  Lemma decanonize_erase k : forall (c : chain) i, decanonize_down k (erase c) i = erase (decanonize_down k c i).
  Proof. induction k as [|k IH]; intros c i; [reflexivity|]. cbn [decanonize_down]. exact (IH (decanonize c i) (i - 1)). Qed.
  Lemma canonize_erase l : forall (c : chain), fold_left (fun c (e : blk P * bytes) => canonize c (b_number (fst e)) (snd e)) l (erase c) = erase (fold_left (fun c (e : blk P * bytes) => canonize c (b_number (fst e)) (snd e)) l c).
  Proof. induction l as [|e l IH]; intros c; [reflexivity|]. cbn [fold_left]. exact (IH (canonize c _ _)). Qed.
End Erase.

Section Lock.
  Context {P S T : Type}.
  Notation block := (blk P).
  Notation chain := (chain (P := P) (S := S)).
  Variable hash : block -> bytes.
  Variable exec : S -> block -> option S.
  Variable root : S -> bytes.
  Variable pre : gmap (N * bytes) block -> block -> bool.
  Variable genesis : block.
  Variable gs : S.
  Variable U : block -> Prop.
  Hypothesis U_genesis : U genesis.
  Hypothesis hash_inj : forall a b, U a -> U b -> hash a = hash b -> a = b.
  Hypothesis genesis_number : b_number genesis = 0.
  Hypothesis genesis_small : b_difficulty genesis < 2 ^ 256.
  Variable run : T -> block -> option (bool * T).
  Variable undo : T -> N -> T.
  Variable state_root : T -> option bytes.
  (** [Rel k u s t]: the buffer [t] holds the state [s], can go back to the states of [u], and has room for [k] executions *)
  Variable Rel : nat -> list (N * S) -> S -> T -> Prop.
  Notation vch := (vch hash exec genesis gs U).
  Hypothesis rel_weak : forall k u s t, Rel (Datatypes.S k) u s t -> Rel k u s t.
  Hypothesis rel_exec : forall k p l s d u b t, vch (p :: l) s d u -> U b -> b_number b = b_number p + 1 -> b_parent b = hash p -> Rel (Datatypes.S k) u s t ->
    match exec s b with
    | Some s' => exists t', run t b = Some (true, t') /\ Rel k ((b_number b, s) :: u) s' t'
    | None => exists t', run t b = Some (false, t') /\ Rel k u s t'
    end.
  Hypothesis rel_undo : forall k n s0 u s t, Rel k ((n, s0) :: u) s t -> Rel k u s0 (undo t n).
  Hypothesis rel_root : forall k l s d u t, vch l s d u -> Rel k u s t -> state_root t = Some (root s).

  Notation "'A!' f" := (f hash exec root pre genesis gs U U_genesis hash_inj genesis_number genesis_small) (at level 10, f at level 9, only parsing).
  Notation "'B!' f" := (f hash exec root pre genesis gs U hash_inj genesis_number genesis_small) (at level 10, f at level 9, only parsing).
  Notation stored := (stored (S := S) hash).
  Notation linked := (linked hash U).
  Notation with_hash := (fun b : block => (b, hash b)).
  Notation n_execute_block := (n_execute_block run undo state_root).
  Notation n_execute_all := (n_execute_all run undo state_root).
  Notation n_re_execute := (n_re_execute run undo state_root).

  Lemma rel_less j k u s t : Rel (j + k) u s t -> Rel k u s t.
  Proof. induction j as [|j IH]; [easy|]. intros H. apply IH, rel_weak. exact H. Qed.
  Lemma rel_le j k u s t : (j <= k)%nat -> Rel k u s t -> Rel j u s t.
  Proof. intros Hl H. apply (rel_less (k - j)). now replace (k - j + j)%nat with k by lia. Qed.

  Lemma execute_lock (c : chain) b p l s d u check k t :
    U b -> vch (p :: l) s d u -> c_state c = s -> c_applied c = u -> b_number b = b_number p + 1 -> b_parent b = hash p -> Rel (Datatypes.S k) u s t ->
    (exists s' t', vch (b :: p :: l) s' (d + b_difficulty b) ((b_number b, s) :: u) /\ execute_block exec root c b check = Done (true, set_state c s' ((b_number b, s) :: u))
       /\ n_execute_block (erase c, t) b check = Done (true, (erase c, t')) /\ Rel k ((b_number b, s) :: u) s' t')
    \/ execute_block exec root c b check = Done (false, c) /\ exists t', n_execute_block (erase c, t) b check = Done (false, (erase c, t')) /\ Rel k u s t'.
  Proof.
    intros HUb Hv Hs Hu Hn Hp HR.
    pose proof (rel_exec _ _ _ _ _ _ _ _ Hv HUb Hn Hp HR) as He.
    destruct (A! execute_ok c b _ p l s d u check eq_refl HUb Hv Hs Hu Hn Hp) as [(s' & Hv' & E & Ex & Hr)|[E Ex]].
    - rewrite Ex in He. destruct He as (t' & Et & HR'). left. exists s', t'. split; [exact Hv'|]. split; [exact E|]. split; [|exact HR'].
      unfold ChainBufferModel.n_execute_block. cbn [fst snd]. rewrite Et. destruct check; [|reflexivity].
      rewrite (rel_root _ _ _ _ _ _ Hv' HR'), (Hr eq_refl), (proj2 (bytes_eqb_eq _ _) eq_refl). reflexivity.
    - right. split; [exact E|]. unfold ChainBufferModel.n_execute_block. cbn [fst snd].
      destruct (exec s b) as [s'|] eqn:Exb.
      + destruct He as (t' & Et & HR'). destruct Ex as [-> Hr]. rewrite Et.
        assert (Hv' : vch (b :: p :: l) s' (d + b_difficulty b) ((b_number b, s) :: u)) by (econstructor; eauto).
        rewrite (rel_root _ _ _ _ _ _ Hv' HR'). destruct (bytes_eqb (root s') (b_root b)) eqn:Eb; [now apply bytes_eqb_eq in Eb|].
        cbn [negb]. eexists. split; [reflexivity|]. eapply rel_undo; exact HR'.
      + destruct He as (t' & Et & HR'). rewrite Et. eauto.
  Qed.

  Lemma execute_all_lock y : forall (c : chain) z s d u check k t,
    vch z s d u -> c_state c = s -> c_applied c = u -> linked y z -> Rel (length y + k) u s t ->
    exists ok j s1 u1 t1, execute_all exec root c (map with_hash (rev y)) check = Done (ok, j, set_state c s1 u1)
      /\ n_execute_all (erase c, t) (map with_hash (rev y)) check = Done (ok, j, (erase c, t1)) /\ Rel k u1 s1 t1.
  Proof.
    induction y as [|b y IH] using rev_ind; intros c z s d u check k t Hz Hs Hu Hl HR.
    - exists true, 0, s, u, t. subst. cbn. rewrite set_state_id. easy.
    - apply (linked_app hash exec root genesis gs U) in Hl as [Hl1 Hl2]. rewrite rev_unit. cbn [map execute_all ChainBufferModel.n_execute_all].
      cbn [BlockchainProofs.linked app] in Hl2. destruct z as [|p zt]; [easy|]. destruct Hl2 as [(HUb & Hn & Hp) _].
      rewrite app_length in HR. cbn [length] in HR. replace (length y + 1 + k)%nat with (Datatypes.S (length y + k)) in HR by lia.
      destruct (execute_lock c b p zt s d u check _ t HUb Hz Hs Hu Hn Hp HR) as [(s' & t' & Hv' & E & En & HR')|[E (t' & En & HR')]].
      + rewrite E, En. cbn [bind].
        destruct (IH (set_state c s' ((b_number b, s) :: u)) (b :: p :: zt) s' _ _ check k t' Hv' eq_refl eq_refl Hl1 HR') as (ok & j & s1 & u1 & t1 & E1 & E2 & HR1).
        exists ok, (j + 1), s1, u1, t1. cbv beta iota. change (erase (set_state c s' ((b_number b, s) :: u))) with (erase c) in E2.
        match goal with |- context [execute_all exec root ?cc ?ll check] => change ll with (map with_hash (rev y)) end.
        rewrite E1, E2. cbn [bind]. now rewrite set_state_twice.
      + rewrite E, En. cbn [bind]. exists false, 0, s, u, t'. split; [subst; now rewrite set_state_id|]. split; [reflexivity|]. eapply rel_less; exact HR'.
  Qed.

  Lemma unwind_lock x : forall (e : BlockchainModel.chain (P := P) (S := unit)) z s d u sz dz uz n k t,
    vch (x ++ z) s d u -> vch z sz dz uz -> n + 1 = N.of_nat (length (x ++ z)) -> Rel k u s t ->
    exists t', n_unwind_last undo (length x) (e, t) n = (e, t') /\ Rel k uz sz t'.
  Proof.
    induction x as [|b x IH]; intros e z s d u sz dz uz n k t Hv Hz Hn HR.
    - cbn in Hv. destruct (vch_det _ _ _ _ _ _ _ _ _ Hv _ _ _ Hz) as (-> & -> & ->). cbn. eauto.
    - cbn [length n_unwind_last]. cbn in Hv. inversion Hv as [Hb|p l s0 d0 u0 b0 s' Hub0 H0 Hbn Hp He]; subst.
      + destruct x; [|discriminate]. cbn in *. subst. now apply vch_nonempty in Hz.
      + match goal with H : p :: l = _ |- _ => rewrite H in H0 end.
        assert (E : b_number b = N.of_nat (length (x ++ z))) by (eapply (B! vch_number); [exact Hv|reflexivity]).
        cbn [app length fst snd] in *. replace n with (b_number b) by lia.
        apply (IH _ _ _ _ _ _ _ _ _ _ _ H0 Hz); [|eapply rel_undo; exact HR].
        destruct (x ++ z) eqn:Ex; [now apply vch_nonempty in H0|]. cbn [length] in *. lia.
  Qed.
  Lemma unwind_changes_lock (e : BlockchainModel.chain (P := P) (S := unit)) x z s d u sz dz uz a n k t :
    vch (x ++ z) s d u -> vch z sz dz uz -> a + 1 = N.of_nat (length z) -> n + 1 = N.of_nat (length (x ++ z)) -> Rel k u s t ->
    exists t', n_unwind_last_changes undo (e, t) a n = Done (e, t') /\ Rel k uz sz t'.
  Proof.
    intros Hv Hz Ha Hn HR. unfold n_unwind_last_changes. pose proof Hn as Hn'. rewrite app_length in Hn'.
    rewrite (proj2 (N.leb_le _ _)) by lia. replace (N.to_nat (n - a)) with (length x) by lia.
    destruct (unwind_lock x e z s d u sz dz uz n k t Hv Hz Hn HR) as (t' & -> & H). eauto.
  Qed.

  Lemma re_execute_lock x : forall (c : chain) z cl s d u sz dz uz n k t,
    vch (x ++ z) s d u -> vch z sz dz uz -> c_state c = sz -> c_applied c = uz -> canon hash c cl -> (exists w sw dw uw, cl = w ++ x ++ z /\ vch cl sw dw uw) ->
    Forall (stored c) x -> n = N.of_nat (length z) -> Rel (length x + k) uz sz t ->
    exists t', n_re_execute (length x) (erase c, t) n = Done (erase c, t') /\ Rel k u s t'.
  Proof.
    induction x as [|b x IH] using rev_ind; intros c z cl s d u sz dz uz n k t Hv Hz Hs Hu Hc (w & sw & dw & uw & Hw & Hcl) Hst Hn HR.
    - cbn in *. destruct (vch_det _ _ _ _ _ _ _ _ _ Hv _ _ _ Hz) as (-> & -> & ->). eauto.
    - rewrite app_length in *. cbn [length] in *. replace (length x + 1)%nat with (Datatypes.S (length x)) in * by lia. cbn [ChainBufferModel.n_re_execute].
      rewrite <- app_assoc in *. cbn [app] in *.
      destruct (vch_suffix _ _ _ _ _ _ _ _ _ _ Hv) as (s1 & d1 & u1 & H1); [discriminate|].
      assert (Hbn : b_number b = n) by (rewrite Hn; eapply (B! vch_number); [exact H1|reflexivity]).
      assert (Hlk : canonical_hash c n = Some (hash b)).
      { rewrite <- Hbn. rewrite Hw, app_assoc in Hc. eapply (B! canon_lookup); eauto. }
      change (canonical_hash (fst (erase c, t)) n) with (canonical_hash c n). rewrite Hlk.
      apply Forall_app in Hst as [Hst Hsb]. apply List.Forall_cons_iff in Hsb as [Hsb _].
      unfold BlockchainProofs.stored in Hsb. rewrite Hbn in Hsb. change (c_blocks (fst (erase c, t))) with (c_blocks c). rewrite Hsb.
      destruct (vch_linked hash exec genesis gs U [b] z _ _ _ H1) as [Hl _]; [eapply vch_nonempty; eauto|]. cbn [app] in Hl.
      destruct z as [|p zt]; [easy|]. destruct Hl as (HUb & Hl1 & Hl2).
      destruct (execute_lock c b p zt sz dz uz false _ t HUb Hz Hs Hu Hl1 Hl2 HR) as [(s' & t' & Hv' & E & En & HR')|[E (t' & En & HR')]].
      + rewrite En. cbn [bind].
        destruct (IH (set_state c s' ((b_number b, sz) :: uz)) (b :: p :: zt) cl s d u s' _ _ (n + 1) k t' Hv Hv' eq_refl eq_refl Hc) as (t2 & E2 & HR2).
        * now exists w, sw, dw, uw.
        * exact Hst.
        * rewrite Hn. cbn [length]. lia.
        * exact HR'.
        * exists t2. split; [exact E2|exact HR2].
      + exfalso. inversion H1 as [|p0 l0 s0 d0 u0 b0 s0' Hub0 H0 Hn0 Hp0 He0]; subst.
        destruct (vch_det _ _ _ _ _ _ _ _ _ H0 _ _ _ Hz) as (-> & -> & ->).
        unfold execute_block in E. rewrite He0 in E. rewrite (A! existsb_none _ _ _ _ _ Hz) in E by (rewrite Hl1, (B! vch_number _ _ _ _ Hz _ _ eq_refl); cbn [length]; lia).
        discriminate.
  Qed.

  Lemma insert_lock h (c : chain) cl d b check k t :
    U b -> Inv hash exec genesis gs U h c cl d -> submittable hash c b -> N.of_nat (length h) + 2 < 2 ^ 64 ->
    Rel (2 * length h + 1 + k) (c_applied c) (c_state c) t ->
    forall ok c', insert_block hash exec root pre c b check = Done (ok, c') ->
    exists t', n_insert_block hash pre run undo state_root (erase c, t) b check = Done (ok, (erase c', t')) /\ Rel k (c_applied c') (c_state c') t'.
  Proof.
    intros HUb HI [Hb64 Hnc] Hlen HR ok0 c0. unfold insert_block, n_insert_block. cbn [fst snd]. change (c_blocks (erase c)) with (c_blocks c). change (c_bad (erase c)) with (c_bad c).
    pose proof HI as [H1 H2 H3 H4 H5 H6].
    assert (HRk : Rel k (c_applied c) (c_state c) t) by (eapply rel_less; exact HR).
    destruct (c_blocks c !! ((b_number b + 2 ^ 64 - 1) mod 2 ^ 64, b_parent b)) as [p|] eqn:Ep; cbn [negb].
    2:{ intros [= <- <-]. eauto. }
    destruct (H4 _ _ _ Ep) as (Epn & Epp & Hpa & Hpn & l & s & dp & u & Hvp & Hlp & Hdp & Hdp1 & Hdp2).
    assert (Hb1 : 1 <= b_number b).
    { destruct (N.eq_dec (b_number b) 0) as [E0|E0]; [|lia]. rewrite E0 in Epn. rewrite N.add_0_l in Epn.
      rewrite N.mod_small in Epn by lia. lia. }
    rewrite (A! sub1) in Ep, Epn, Hdp by lia.
    assert (Hsp : stored c p) by (unfold BlockchainProofs.stored; rewrite <- Epn, <- Epp; exact Ep).
    destruct (pre (c_blocks c) b) eqn:Epre; cbn [negb].
    2:{ intros [= <- <-]. eauto. }
    case_bool_decide as Ebad.
    { intros [= <- <-]. eauto. }
    assert (Hbl : N.to_nat (b_number b) = length (p :: l)).
    { cbn [length]. pose proof (B! vch_number _ _ _ _ Hvp _ _ eq_refl). lia. }
    rewrite (ancestor_erase _ c).
    destruct (A! ancestor_ok c cl _ _ _ (N.to_nat (b_number b)) H1 H2 _ _ _ _ Hvp Hlp) with (b := p) (t := l) as (x & y & z & Ecl & El & Hz & Ha & _).
    { rewrite Hbl. reflexivity. }
    { rewrite <- Hbl. lia. }
    { reflexivity. }
    assert (Ha' : canonical_ancestor (Datatypes.S (N.to_nat (b_number b))) c b (hash b) = Done (N.of_nat (length z) - 1)).
    { cbn [canonical_ancestor]. rewrite bool_decide_false by exact Hnc. rewrite (A! sub1) by lia. rewrite Ep, Epp. exact Ha. }
    rewrite Ha'. cbn [bind]. subst cl.
    assert (Hvy : vch (y ++ z) s dp u) by (rewrite <- El; exact Hvp).
    destruct (vch_suffix _ _ _ _ _ _ _ _ _ _ H2 Hz) as (sz & dz & uz & Hvz).
    assert (Hzlen : N.of_nat (length z) - 1 + 1 = N.of_nat (length z)).
    { destruct z; [contradiction|]. cbn [length]. lia. }
    assert (Htip : current_block c + 1 = N.of_nat (length (x ++ z))) by (eapply (B! current_canon); eassumption).
    change (current_block (erase c)) with (current_block c).
    rewrite (A! unwind_changes_ok c x z _ _ _ _ _ _ _ _ H2 Hvz eq_refl eq_refl Hzlen Htip). cbn [bind].
    destruct (unwind_changes_lock (erase c) x z _ _ _ _ _ _ _ _ _ _ H2 Hvz Hzlen Htip HR) as (t1 & E1 & HR1). rewrite E1. cbn [bind fst snd].
    assert (Hly : linked y z) by (eapply vch_linked; eassumption).
    assert (Hn : b_number b = b_number p + 1) by lia.
    assert (Hlb : linked (b :: y) z).
    { cbn [BlockchainProofs.linked]. rewrite <- El. split; [split; [exact HUb|split; assumption]|exact Hly]. }
    assert (Hsty : Forall (stored c) y).
    { assert (HF : Forall (stored c) (y ++ z)) by (rewrite <- El; constructor; assumption). now apply List.Forall_app in HF as [HF _]. }
    assert (Hyz : (length (y ++ z)) = length (p :: l)) by now rewrite El.
    change (erase c) with (erase (set_state c sz uz)). rewrite (intermediate_erase (set_state c sz uz)).
    unfold intermediate_chain. rewrite app_length in Hyz.
    rewrite (proj2 (N.ltb_ge _ _)) by lia.
    replace (N.to_nat (b_number b - 1 - (N.of_nat (length z) - 1))) with (length y) by lia.
    destruct z as [|q zt]; [contradiction|].
    rewrite Epp. rewrite (B! collect_ok (set_state c sz uz) y (q :: zt) (b_number b - 1) (hash p) q zt [] eq_refl Hly Hsty); cycle 1.
    { exists sz, dz, uz. exact Hvz. }
    { rewrite <- El. split; [lia|reflexivity]. }
    cbn [bind]. rewrite app_nil_r.
    assert (Erev : map (fun b : block => (b, hash b)) (List.rev y) ++ [(b, hash b)] = map (fun b : block => (b, hash b)) (List.rev (b :: y))).
    { cbn [List.rev]. now rewrite map_app. }
    rewrite Erev.
    assert (Hlx : (length x <= length h)%nat).
    { destruct x as [|tb x]; [cbn; lia|]. cbn [app] in H2, H3. apply List.Forall_inv in H3. destruct (H4 _ _ _ H3) as (_ & _ & _ & Htl & _).
      rewrite (B! vch_number _ _ _ _ H2 _ _ eq_refl), app_length in Htl. cbn [length] in *. lia. }
    assert (Hlyy : (length (b :: y) <= length h + 1)%nat).
    { cbn [length] in *. lia. }
    assert (HR2 : Rel (length (b :: y) + (length x + k)) uz sz t1) by (eapply rel_le; [|exact HR1]; lia).
    destruct (A! execute_all_ok (b :: y) (set_state c sz uz) (q :: zt) sz dz uz check Hvz eq_refl eq_refl Hlb)
      as (ok & j & y1 & y2 & s1 & d1 & u1 & Ey & -> & Hv1 & Eall & Hok).
    destruct (execute_all_lock (b :: y) (set_state c sz uz) (q :: zt) sz dz uz check _ _ Hvz eq_refl eq_refl Hlb HR2)
      as (ok' & j & s1' & u1' & t2 & Eall' & Enall & HR3).
    rewrite Eall in Eall'. injection Eall' as <- <- Es1 Eu1. subst s1' u1'.
    rewrite Eall, Enall. cbn [bind]. rewrite set_state_twice.
    set (tip := current_block c) in *. set (a := N.of_nat (length (q :: zt)) - 1) in *.
    assert (Hres : forall cc : chain, c_state cc = s1 -> c_applied cc = u1 -> canon hash cc (x ++ q :: zt) -> Forall (stored cc) x ->
      bind (unwind_last_changes cc a (a + N.of_nat (length y1))) (fun c0 => re_execute_canonical_chain exec root c0 a tip) = Done (set_state cc (c_state c) (c_applied c))
      /\ exists t3, bind (n_unwind_last_changes undo (erase cc, t2) a (a + N.of_nat (length y1))) (fun x0 => n_re_execute_canonical_chain run undo state_root x0 a tip) = Done (erase cc, t3)
         /\ Rel k (c_applied c) (c_state c) t3).
    { intros cc Es Eu Hcc Hst.
      assert (Ea : a + N.of_nat (length y1) + 1 = N.of_nat (length (y1 ++ q :: zt))) by (rewrite app_length; lia).
      rewrite (A! unwind_changes_ok cc y1 (q :: zt) _ _ _ _ _ _ _ _ Hv1 Hvz Es Eu Hzlen Ea). cbn [bind].
      destruct (unwind_changes_lock (erase cc) y1 (q :: zt) _ _ _ _ _ _ _ _ _ _ Hv1 Hvz Hzlen Ea HR3) as (t4 & E4 & HR4). rewrite E4. cbn [bind].
      unfold re_execute_canonical_chain, n_re_execute_canonical_chain. rewrite app_length in Htip.
      rewrite (proj2 (N.leb_le _ _)) by lia. replace (N.to_nat (tip - a)) with (length x) by lia.
      assert (Hex : exists w sw dw uw, x ++ q :: zt = w ++ x ++ q :: zt /\ vch (x ++ q :: zt) sw dw uw) by (exists [], (c_state c), d, (c_applied c); split; [reflexivity|exact H2]).
      split.
      - rewrite (A! re_execute_ok x (set_state cc sz uz) (q :: zt) (x ++ q :: zt) (c_state c) d (c_applied c) sz dz uz (a + 1) H2 Hvz eq_refl eq_refl Hcc Hex Hst Hzlen).
        now rewrite set_state_twice.
      - destruct (re_execute_lock x (set_state cc sz uz) (q :: zt) (x ++ q :: zt) (c_state c) d (c_applied c) sz dz uz (a + 1) k t4 H2 Hvz eq_refl eq_refl Hcc Hex Hst Hzlen HR4) as (t5 & E5 & HR5).
        exists t5. split; [exact E5|exact HR5]. }
    assert (Hstx : Forall (stored c) x) by (apply List.Forall_app in H3 as [H3' _]; exact H3').
    destruct ok; cbn [negb].
    2:{ destruct (Hres (add_bad (set_state c s1 u1) (hash b)) eq_refl eq_refl H1 Hstx) as (Er & t3 & En3 & HR5). rewrite Er. cbn [bind]. intros [= <- <-].
        cbn [fst snd]. change (add_bad (erase (set_state c sz uz)) (hash b)) with (erase (add_bad (set_state c s1 u1) (hash b))). rewrite En3. cbn [bind]. exists t3. split; [reflexivity|exact HR5]. }
    cbn zeta. cbn [fst snd].
    change (store_block (erase (set_state c sz uz)) b (hash b)) with (erase (store_block (set_state c s1 u1) b (hash b))).
    change (canonical_hash (erase (store_block (set_state c s1 u1) b (hash b))) tip) with (canonical_hash (store_block (set_state c s1 u1) b (hash b)) tip).
    change (c_difficulty (erase (store_block (set_state c s1 u1) b (hash b)))) with (c_difficulty (store_block (set_state c s1 u1) b (hash b))).
    destruct (canonical_hash (store_block (set_state c s1 u1) b (hash b)) tip) as [th|]; [|discriminate].
    destruct (c_difficulty (store_block (set_state c s1 u1) b (hash b)) !! (tip, th)) as [cur|]; [|discriminate].
    destruct (cur <? default 0 (c_difficulty (store_block (set_state c s1 u1) b (hash b)) !! (b_number b, hash b))).
    - intros Eok. rewrite decanonize_erase, canonize_erase.
      replace (N.to_nat (tip - a)) with (length x) in * by (rewrite app_length in Htip; lia).
      destruct (B! decanonize_ok x (store_block (set_state c s1 u1) b (hash b)) (q :: zt) tip H1 Htip Hz) as (c1 & Ec1 & Hc1 & Ec2).
      rewrite Ec1 in *. rewrite (B! canonize_ok (b :: y) c1 (q :: zt) sz dz uz Hc1 Hvz Hlb) in *. rewrite Ec2 in *.
      injection Eok as <- <-. exists t2. split; [reflexivity|]. cbn [c_applied c_state set_canonical store_block set_state]. eapply rel_less; exact HR3.
    - assert (HstX : Forall (stored (store_block (set_state c s1 u1) b (hash b))) x).
      { refine (stored_all hash U hash_inj (set_state c s1 u1) b x HUb _ Hstx).
        pose proof (vch_U _ _ _ _ _ U_genesis _ _ _ _ H2) as HU'. now apply List.Forall_app in HU' as [HU' _]. }
      destruct (Hres (store_block (set_state c s1 u1) b (hash b)) eq_refl eq_refl H1 HstX) as (Er & t3 & En3 & HR5). rewrite Er. cbn [bind]. intros [= <- <-].
      rewrite En3. cbn [bind]. exists t3. split; [reflexivity|exact HR5].
  Qed.

  Variable t0 : T.
  Lemma work_last h k : work genesis (h ++ [k]) = work genesis h + b_difficulty (k_block k).
  Proof. unfold work. rewrite fold_right_app. cbn [fold_right]. induction h as [|x h IH]; cbn [fold_right]; lia. Qed.
  Lemma history_lock h x : Forall (fun k => U (k_block k)) h -> no_overflow genesis h -> n_history hash pre run undo state_root genesis t0 h x ->
    forall k, Rel (length h * length h + k) [] gs t0 ->
    exists c, history hash exec root pre genesis gs h c /\ fst x = erase c /\ Rel k (c_applied c) (c_state c) (snd x).
  Proof.
    intros HU Hno Hh. revert HU Hno. induction Hh as [|h x c x' Hh IH Hsub Hk]; intros HU [Hl Hw] k HR.
    - exists (start hash genesis gs). split; [constructor|]. split; [reflexivity|exact HR].
    - rewrite app_length in *. cbn [length] in *. rewrite work_last in Hw. apply List.Forall_app in HU as [HU HUk]. apply List.Forall_inv in HUk.
      assert (Hno : no_overflow genesis h) by (split; lia).
      destruct (IH HU Hno (2 * length h + 1 + k)%nat) as (c1 & Hh1 & E1 & HR1).
      { eapply rel_le; [|exact HR]. nia. }
      destruct (A! history_inv h c1 HU Hno Hh1) as (cl & d & HI).
      assert (Hsub1 : submittable hash c1 (k_block c)) by (rewrite E1 in Hsub; exact Hsub).
      destruct (A! insert_ok h c1 cl d (k_block c) (k_check c) HUk HI Hsub1 ltac:(lia) ltac:(lia)) as (ok & c2 & cl' & d' & E & _).
      destruct (insert_lock h c1 cl d (k_block c) (k_check c) k (snd x) HUk HI Hsub1 ltac:(lia) HR1 ok c2 E) as (t' & En & HR2).
      destruct x as [e t]. cbn [fst snd] in *. subst e. rewrite Hk in En. injection En as Eok ->. exists c2. split; [|split; [reflexivity|exact HR2]].
      econstructor; [exact Hh1|exact Hsub1|]. now rewrite Eok.
  Qed.
  (** every further call returns *)
  Lemma total_lock h x b check : Forall (fun k => U (k_block k)) h -> U b -> no_overflow genesis (h ++ [mkCall b check true]) -> n_history hash pre run undo state_root genesis t0 h x ->
    submittable hash (fst x) b -> Rel ((length h + 1) * (length h + 1)) [] gs t0 ->
    exists c ok c' t', history hash exec root pre genesis gs h c /\ fst x = erase c /\ submittable hash c b
      /\ insert_block hash exec root pre c b check = Done (ok, c')
      /\ n_insert_block hash pre run undo state_root x b check = Done (ok, (erase c', t')) /\ Rel 0 (c_applied c) (c_state c) (snd x) /\ Rel 0 (c_applied c') (c_state c') t'.
  Proof.
    intros HU HUb [Hl Hw] Hh Hsub HR. rewrite app_length in Hl. cbn [length] in Hl. rewrite work_last in Hw. cbn [k_block] in Hw.
    assert (Hno : no_overflow genesis h) by (split; lia).
    destruct (history_lock h x HU Hno Hh (2 * length h + 1 + 0)%nat) as (c & Hh1 & E1 & HR1).
    { eapply rel_le; [|exact HR]. nia. }
    destruct (A! history_inv h c HU Hno Hh1) as (cl & d & HI).
    assert (Hsub1 : submittable hash c b) by (rewrite E1 in Hsub; exact Hsub).
    destruct (A! insert_ok h c cl d b check HUb HI Hsub1 ltac:(lia) ltac:(lia)) as (ok & c2 & cl' & d' & E & _).
    destruct (insert_lock h c cl d b check 0 (snd x) HUb HI Hsub1 ltac:(lia) HR1 ok c2 E) as (t' & En & HR2).
    exists c, ok, c2, t'. split; [exact Hh1|]. split; [exact E1|]. split; [exact Hsub1|]. split; [exact E|]. destruct x as [e t]. cbn [fst snd] in *. subst e.
    split; [exact En|]. split; [|exact HR2]. eapply rel_less; exact HR1.
  Qed.
End Lock.
