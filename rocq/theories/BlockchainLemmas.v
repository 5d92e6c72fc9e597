(** C30: final forms and a concrete chain. *)
From stdpp Require Import gmap.
From Verif Require Import Base BaseFacts BlockchainModel BlockchainSpec BlockchainProofs.

Section Lemmas.
  Context {P S : Type}.
  Notation block := (blk P).
  Variable hash : block -> bytes.
  Variable exec : S -> block -> option S.
  Variable root : S -> bytes.
  Variable pre : gmap (N * bytes) block -> block -> bool.
  Variable genesis : block.
  Variable gs : S.
  Notation valid_chain := (valid_chain hash exec genesis gs).
  Notation history := (history hash exec root pre genesis gs).

  Notation no_collision := (no_collision hash).
  Notation involved := (involved genesis).

  Lemma involved_all h : Forall (fun k => In (k_block k) (involved h)) h.
  Proof. apply List.Forall_forall. intros k Hk. right. now apply in_map. Qed.
  Lemma accepted_involved h b : accepted genesis h b -> In b (involved h).
  Proof. intros [->|(k & Hk & <- & _)]; [now left|]. right. now apply in_map. Qed.
  Lemma work_start h : b_difficulty genesis <= work genesis h.
  Proof. unfold work. induction h as [|k h IH]; cbn [fold_right]; lia. Qed.

  Lemma work_snoc h k : work genesis (h ++ [k]) = work genesis h + b_difficulty (k_block k).
  Proof. unfold work. rewrite fold_right_app. cbn [fold_right]. induction h as [|x h IH]; cbn [fold_right]; lia. Qed.

  Lemma heaviest h c :
    b_number genesis = 0 -> no_collision (involved h) -> no_overflow genesis h -> history h c ->
    exists cl d, valid_chain cl (c_state c) d /\ c_canonical c = rev (map hash cl)
      /\ (forall b, In b cl -> accepted genesis h b)
      /\ (forall b, accepted genesis h b -> exists l s d', valid_chain (b :: l) s d' /\ d' <= d).
  Proof.
    intros Hg Hu Hno Hh. pose proof (work_start h) as Hws.
    destruct (history_inv hash exec root pre genesis gs (fun b => In b (involved h)) (or_introl eq_refl) Hu Hg ltac:(destruct Hno; lia) h c (involved_all h) Hno Hh)
      as (cl & d & [H1 H2 H3 H4 H5 H6]).
    exists cl, d. split; [eapply vch_valid; exact H2|]. split; [exact H1|]. split.
    - intros b Hb. rewrite List.Forall_forall in H3. now destruct (H4 _ _ _ (H3 b Hb)) as (_ & _ & Ha & _).
    - intros b Hb. destruct (H4 _ _ _ (H5 b Hb)) as (_ & _ & _ & _ & l & s & d' & u & Hv & _ & _ & Hle & _).
      exists l, s, d'. split; [eapply vch_valid; exact Hv|exact Hle].
  Qed.

  Lemma valid_unique l s d : valid_chain l s d -> forall s' d', valid_chain l s' d' -> s = s' /\ d = d'.
  Proof.
    induction 1 as [|p l s d b s1 H IH Hn Hp He]; intros s' d' H'.
    - inversion H'; auto.
    - inversion H' as [|p0 l0 s0 d0 b0 s0' H0 Hn0 Hp0 He0]; subst.
      destruct (IH _ _ H0) as (-> & ->). rewrite He in He0. now injection He0 as ->.
  Qed.

  Lemma insertion h c b check :
    b_number genesis = 0 -> no_collision (b :: involved h) -> no_overflow genesis (h ++ [mkCall b check true]) -> history h c -> submittable hash c b ->
    exists ok c', insert_block hash exec root pre c b check = Done (ok, c')
      /\ (ok = false -> c_canonical c' = c_canonical c /\ c_state c' = c_state c)
      /\ (ok = true -> pre (c_blocks c) b = true)
      /\ (ok = true -> forall cl d, valid_chain cl (c_state c) d -> c_canonical c = rev (map hash cl) -> (forall x, In x cl -> accepted genesis h x) ->
            exists l s db, valid_chain (b :: l) s db /\ (forall x, In x l -> accepted genesis h x) /\ (check = true -> root s = b_root b)
              /\ if d <? db then c_canonical c' = rev (map hash (b :: l)) /\ c_state c' = s
                 else c_canonical c' = c_canonical c /\ c_state c' = c_state c)
      /\ (forall p l s dp s', (forall x, In x (p :: l) -> accepted genesis h x) -> valid_chain (p :: l) s dp ->
            b_number b = b_number p + 1 -> b_parent b = hash p -> exec s b = Some s' -> pre (c_blocks c) b = true -> ~ refused h b ->
            (check = true -> forall w x t s1 d1, b :: p :: l = w ++ x :: t -> t <> [] -> valid_chain (x :: t) s1 d1 -> root s1 = b_root x) ->
            ok = true).
  Proof.
    intros Hg Hu [Hl Hw] Hh Hsub. pose proof (work_start h) as Hws.
    rewrite app_length in Hl. cbn [length] in Hl. rewrite work_snoc in Hw. cbn [k_block] in Hw.
    set (U := fun x => In x (b :: involved h)).
    assert (HUg : U genesis) by (right; now left).
    assert (HUh : Forall (fun k => U (k_block k)) h).
    { eapply List.Forall_impl; [|exact (involved_all h)]. intros k Hk. now right. }
    destruct (history_inv hash exec root pre genesis gs U HUg Hu Hg ltac:(lia) h c HUh ltac:(split; lia) Hh) as (cl & d & HI).
    destruct (insert_ok hash exec root pre genesis gs U HUg Hu Hg ltac:(lia) h c cl d b check (or_introl eq_refl) HI Hsub)
      as (ok & c' & cl' & d' & E & HI' & Hf & Ht & Hc); [lia|lia|].
    exists ok, c'. split; [exact E|]. split; [intros Hok; now destruct (Hf Hok) as (_ & _ & -> & ->)|]. split; [intros Hok; exact (proj1 (Ht Hok))|]. split.
    - intros Hok cl0 d0 Hv0 Hc0 Ha0. destruct (Ht Hok) as (_ & l & s & db & Hv & Hacc & Hrb & Hif).
      assert (Ecl : cl0 = cl).
      { pose proof (i_canon _ _ _ _ _ _ _ _ _ HI) as Hcan. unfold canon in Hcan. rewrite Hc0 in Hcan.
        apply (f_equal (@rev bytes)) in Hcan. rewrite !rev_involutive in Hcan.
        assert (HU0 : Forall U cl0). { apply List.Forall_forall. intros x Hx. right. apply accepted_involved. auto. }
        assert (HU1 : Forall U cl). { eapply vch_U; [exact HUg|]. exact (i_chain _ _ _ _ _ _ _ _ _ HI). }
        clear - HU0 HU1 Hcan Hu. revert cl HU1 Hcan.
        induction cl0 as [|x cl0 IH]; intros [|y cl] HU1 Hcan; try discriminate; [reflexivity|].
        cbn in Hcan. apply List.Forall_cons_iff in HU0 as [Hx HU0]. apply List.Forall_cons_iff in HU1 as [Hy HU1].
        assert (E1 : hash x = hash y) by congruence. apply Hu in E1; [|exact Hx|exact Hy]. subst y.
        f_equal. apply (IH HU0); [exact HU1|congruence]. }
      subst cl0.
      pose proof (vch_valid _ _ _ _ _ _ _ _ _ (i_chain _ _ _ _ _ _ _ _ _ HI)) as Hv1.
      destruct (valid_unique _ _ _ Hv0 _ _ Hv1) as [_ ->].
      pose proof (vch_valid _ _ _ _ _ _ _ _ _ (i_chain _ _ _ _ _ _ _ _ _ HI')) as Hv2.
      exists l, s, db. split; [exact Hv|]. split; [exact Hacc|]. split; [exact Hrb|].
      destruct (d <? db).
      + destruct Hif as [-> ->]. split; [exact (i_canon _ _ _ _ _ _ _ _ _ HI')|].
        now destruct (valid_unique _ _ _ Hv _ _ Hv2) as [-> _].
      + destruct Hif as [-> ->]. split.
        * rewrite Hc0. exact (i_canon _ _ _ _ _ _ _ _ _ HI').
        * now destruct (valid_unique _ _ _ Hv1 _ _ Hv2) as [-> _].
    - intros p l s dp s' Ha Hv Hn Hp He Hpre Hnr Hr. apply (Hc p l s dp s'); auto.
      + apply Ha. now left.
      + apply List.Forall_forall. intros x Hx. right. apply accepted_involved, Ha. now right.
  Qed.

  Lemma resubmitted h c b check :
    b_number genesis = 0 -> no_collision (involved h) -> no_overflow genesis h -> history h c ->
    accepted genesis h b -> b <> genesis -> canonical_hash c (b_number b) = Some (hash b) -> pre (c_blocks c) b = true -> ~ refused h b ->
    insert_block hash exec root pre c b check = Throws.
  Proof.
    intros Hg Hu [Hl Hw] Hh Ha Hng Hch Hpre Hnr. pose proof (work_start h) as Hws.
    destruct (history_inv hash exec root pre genesis gs (fun b => In b (involved h)) (or_introl eq_refl) Hu Hg ltac:(lia) h c (involved_all h) (conj Hl Hw) Hh)
      as (cl1 & d1 & HI).
    destruct (i_blocks _ _ _ _ _ _ _ _ _ HI _ _ _ (i_accepted _ _ _ _ _ _ _ _ _ HI b Ha)) as (_ & _ & _ & _ & l & s & d' & u & Hv & _).
    refine (resubmit hash exec root pre genesis gs (fun b => In b (involved h)) (or_introl eq_refl) Hu Hg ltac:(lia) h c cl1 d1 b check HI Hl _ Hng Hpre Hnr).
    destruct (canon_split hash exec root pre genesis gs (fun b => In b (involved h)) (or_introl eq_refl) Hu Hg ltac:(lia) c cl1 _ _ _ b _ _ _ l
      (i_canon _ _ _ _ _ _ _ _ _ HI) (i_chain _ _ _ _ _ _ _ _ _ HI) Hv Hch) as [x ->].
    apply in_or_app. right. now left.
  Qed.
End Lemmas.

(** A small chain: the state is the sum of the blocks' payloads, a block with payload 7 is invalid. *)
Definition t_hash (b : blk N) : bytes := [b_number b; b_difficulty b; b_rest b; N.of_nat (length (b_parent b))] ++ b_parent b ++ b_root b.
Definition t_exec (s : N) (b : blk N) : option N := if b_rest b =? 7 then None else Some (s + b_rest b).
Definition t_root (s : N) : bytes := [s].
Definition t_pre (_ : gmap (N * bytes) (blk N)) (b : blk N) : bool := negb (b_difficulty b =? 0).
Definition t_genesis : blk N := mkBlk 0 [] 1 [] 0.
Definition t_a1 : blk N := mkBlk 1 (t_hash t_genesis) 5 [10] 10.
Definition t_b1 : blk N := mkBlk 1 (t_hash t_genesis) 4 [20] 20.
Definition t_b2 : blk N := mkBlk 2 (t_hash t_b1) 4 [50] 30.
Definition t_bad : blk N := mkBlk 2 (t_hash t_b1) 9 [50] 7.
Definition t_wrong : blk N := mkBlk 2 (t_hash t_a1) 9 [99] 4.
Definition t_a2 : blk N := mkBlk 2 (t_hash t_a1) 3 [13] 3.

Lemma t_hash_inj a b : t_hash a = t_hash b -> a = b.
Proof.
  destruct a as [n p d r x], b as [n' p' d' r' x']. unfold t_hash. cbn. intros [= -> -> -> El E].
  apply Nat2N.inj in El. apply app_inj_1 in E as [-> ->]; [reflexivity|exact El].
Qed.

Definition t_run (l : list (blk N * bool * bool)) : option (chain (P := N) (S := N)) :=
  fold_left (fun c '(b, check, ok) =>
    match c with
    | None => None
    | Some c =>
      if (b_number b <? 2 ^ 64) && negb (bool_decide (canonical_hash c (b_number b) = Some (t_hash b))) then
        match insert_block t_hash t_exec t_root t_pre c b check with
        | Done (ok', c') => if Bool.eqb ok ok' then Some c' else None
        | _ => None
        end
      else None
    end) l (Some (start t_hash t_genesis 0)).
Lemma t_run_history l c :
  t_run l = Some c -> history t_hash t_exec t_root t_pre t_genesis 0 (map (fun '(b, check, ok) => mkCall b check ok) l) c.
Proof.
  revert c. induction l as [|[[b check] ok] l IH] using rev_ind; intros c.
  - intros [= <-]. constructor.
  - unfold t_run. rewrite fold_left_app. fold (t_run l). cbn [fold_left]. destruct (t_run l) as [c0|]; [|discriminate].
    destruct ((b_number b <? 2 ^ 64) && _) eqn:E; [|discriminate].
    apply andb_true_iff in E as [E1 E2]. apply N.ltb_lt in E1. apply negb_true_iff, bool_decide_eq_false in E2.
    destruct (insert_block _ _ _ _ c0 b check) as [[ok' c']| |] eqn:Ei; try discriminate.
    destruct (Bool.eqb ok ok') eqn:Eo; [|discriminate]. apply eqb_prop in Eo as <-. intros [= <-].
    rewrite map_app. cbn [map]. eapply history_call; [now apply IH| |exact Ei]. split; assumption.
Qed.

(** a1 becomes canonical, b1 stays on the side, b2 on b1 reorganises, t_bad and t_wrong are refused, a2 stays on the side *)
Definition t_calls : list (blk N * bool * bool) :=
  [(t_a1, true, true); (t_b1, true, true); (t_b2, true, true); (t_bad, true, false); (t_wrong, true, false); (t_a2, true, true)].
Definition t_h : list call := map (fun '(b, check, ok) => mkCall b check ok) t_calls.

Lemma t_final : exists c, t_run t_calls = Some c /\ c_state c = 50 /\ c_canonical c = [t_hash t_genesis; t_hash t_b1; t_hash t_b2]
  /\ canonical_hash c 1 = Some (t_hash t_b1).
Proof.
  destruct (t_run t_calls) as [c|] eqn:E; [|vm_compute in E; discriminate].
  exists c. split; [reflexivity|].
  assert (H : match t_run t_calls with Some c => (c_state c, c_canonical c) | None => (0, []) end = (50, [t_hash t_genesis; t_hash t_b1; t_hash t_b2])).
  { vm_compute. reflexivity. }
  rewrite E in H. injection H as H1 H2. split; [exact H1|]. split; [exact H2|]. unfold canonical_hash. rewrite H2. reflexivity.
Qed.
Lemma t_no_overflow : no_overflow t_genesis t_h. Proof. split; vm_compute; reflexivity. Qed.

Lemma t_witness : exists c, history t_hash t_exec t_root t_pre t_genesis 0 t_h c
  /\ c_state c = 50 /\ c_canonical c = [t_hash t_genesis; t_hash t_b1; t_hash t_b2].
Proof.
  destruct t_final as (c & E & H1 & H2 & _). exists c. split; [exact (t_run_history _ _ E)|]. split; assumption.
Qed.

Lemma t_resubmit : exists c, history t_hash t_exec t_root t_pre t_genesis 0 t_h c
  /\ accepted t_genesis t_h t_b1 /\ b_number t_b1 < 2 ^ 64 /\ insert_block t_hash t_exec t_root t_pre c t_b1 true = Throws.
Proof.
  destruct t_final as (c & E & H1 & H2 & H3). exists c. pose proof (t_run_history _ _ E) as Hh.
  assert (Ha : accepted t_genesis t_h t_b1).
  { right. exists (mkCall t_b1 true true). split; [right; left; reflexivity|]. split; reflexivity. }
  split; [exact Hh|]. split; [exact Ha|]. split; [vm_compute; reflexivity|].
  eapply (resubmitted t_hash t_exec t_root t_pre t_genesis 0 t_h c t_b1 true eq_refl).
  - intros a b _ _. apply t_hash_inj.
  - exact t_no_overflow.
  - exact Hh.
  - exact Ha.
  - intros Hx. discriminate (f_equal b_number Hx).
  - exact H3.
  - reflexivity.
  - intros (k & Hk & Eb & Eo).
    assert (Hf : forallb (fun k => negb (b_rest (k_block k) =? 20) || k_ok k) t_h = true) by (vm_compute; reflexivity).
    rewrite forallb_forall in Hf. specialize (Hf k Hk). rewrite Eb, Eo in Hf. discriminate.
Qed.
