(** Proofs about the collector. *)
From Coq Require Import Permutation Sorting.Sorted.
From Verif Require Import Base BaseFacts DbTable DbModel EtlModel EtlSpec.

(** ** Sorting *)
Lemma lt_false_trans a b c : pair_lt b a = false -> pair_lt c b = false -> pair_lt c a = false.
Proof.
  intros H1 H2. destruct (pair_lt c a) eqn:E; [|reflexivity]. destruct (pair_lt a b) eqn:E2.
  - now rewrite (pair_lt_trans _ _ _ E E2) in H2.
  - assert (a = b \/ a <> b) as [ <- |N] by (destruct a as [x y], b as [z w]; destruct (bytes_dec x z), (bytes_dec y w); [left|right..]; congruence); [congruence|]. apply pair_lt_total in H1; congruence.
Qed.
Lemma entry_dec (a b : entry) : {a = b} + {a <> b}.
Proof. destruct a as [x y], b as [z w]. destruct (bytes_dec x z), (bytes_dec y w); [left|right..]; congruence. Qed.
Lemma order_antisym a b : pair_lt a b = false -> pair_lt b a = false -> a = b.
Proof. intros H1 H2. destruct (entry_dec a b) as [E|N]; [exact E|]. apply pair_lt_total in H1; [congruence|exact N]. Qed.
Lemma insert_perm x l : Permutation (insert x l) (x :: l).
Proof.
  induction l as [|y l IH]; [reflexivity|]. cbn [insert]. destruct (entry_le x y); [reflexivity|]. rewrite IH. apply perm_swap.
Qed.
Lemma sort_perm l : Permutation (sort l) l.
Proof. induction l as [|x l IH]; [reflexivity|]. cbn [sort]. rewrite insert_perm. now constructor. Qed.
Lemma insert_sorted x l : in_order l -> in_order (insert x l).
Proof.
  induction l as [|y l IH]; intros H; [repeat constructor|]. cbn [insert]. unfold entry_le. pose proof H as H0. apply sorted_cons_inv in H as (H & F). destruct (pair_lt y x) eqn:E; cbn [negb].
  - constructor; [now apply IH|]. apply Forall_forall. intros z Hz. apply (Permutation_in _ (insert_perm x l)) in Hz as [ <- |Hz]; [|now apply F]. destruct (pair_lt x y) eqn:E2; [|reflexivity]. pose proof (pair_lt_trans _ _ _ E E2) as X. now rewrite pair_lt_irrefl in X.
  - constructor; [exact H0|]. apply Forall_forall. intros z [ <- |Hz]; [exact E|]. apply (lt_false_trans x y z); [exact E|]. now apply F.
Qed.
Lemma sort_sorted l : in_order (sort l).
Proof. induction l as [|x l IH]; [constructor|]. now apply insert_sorted. Qed.
Lemma sorted_unique l1 : forall l2, in_order l1 -> in_order l2 -> Permutation l1 l2 -> l1 = l2.
Proof.
  induction l1 as [|x l1 IH]; intros l2 H1 H2 P; [now apply Permutation_nil in P|]. destruct l2 as [|y l2]; [apply Permutation_sym, Permutation_nil in P; discriminate|].
  apply sorted_cons_inv in H1 as (H1 & F1). apply sorted_cons_inv in H2 as (H2 & F2).
  assert (E : x = y).
  { assert (Ix : In x (y :: l2)) by (apply (Permutation_in _ P); now left). assert (Iy : In y (x :: l1)) by (apply (Permutation_in _ (Permutation_sym P)); now left).
    destruct Ix as [ <- |Ix]; [reflexivity|]. destruct Iy as [ -> |Iy]; [reflexivity|]. apply order_antisym; [now apply F2|now apply F1]. }
  subst y. f_equal. apply IH; [exact H1|exact H2|]. now apply Permutation_cons_inv in P.
Qed.

(** ** Files *)
Lemma le_value_le4 k : forall n, le_value (le4 k n) = n mod 256 ^ N.of_nat k.
Proof.
  induction k as [|k IH]; intros n; [cbn; now rewrite N.mod_1_r|]. cbn [le4 le_value]. rewrite IH. rewrite Nat2N.inj_succ, N.pow_succ_r'. rewrite N.mod_mul_r; [reflexivity|lia|]. apply N.pow_nonzero. lia.
Qed.
Lemma le4_length k n : length (le4 k n) = k.
Proof. revert n. induction k as [|k IH]; intros n; [reflexivity|]. cbn. now rewrite IH. Qed.
Lemma head_value n : n < 2 ^ 32 -> le_value (le4 4 (n mod 2 ^ 32)) = n.
Proof. intros H. rewrite le_value_le4. change (256 ^ N.of_nat 4) with (2 ^ 32). rewrite N.mod_mod by discriminate. now apply N.mod_small. Qed.
Lemma first_part (a b : bytes) n : length a = n -> firstn n (a ++ b) = a /\ skipn n (a ++ b) = b.
Proof. intros <-. rewrite firstn_app, skipn_app, firstn_all, skipn_all, Nat.sub_diag. cbn [firstn skipn]. split; [apply app_nil_r|reflexivity]. Qed.
Lemma read_record s e r : s <> 0 -> fits e -> read_entry (mkProvider true s (file_record e ++ r)) = Done (Some e, mkProvider true s r).
Proof.
  intros Hs (Hk & Hv). destruct e as [k v]. cbn [fst snd] in *. unfold read_entry, file_record. cbn [p_open p_size p_data fst snd]. destruct (N.eqb_spec s 0); [contradiction|]. cbn [negb orb].
  set (hk := le4 4 (blen k mod 2 ^ 32)). set (hv := le4 4 (blen v mod 2 ^ 32)). assert (Lk : length hk = 4%nat) by apply le4_length. assert (Lv : length hv = 4%nat) by apply le4_length.
  rewrite <- !app_assoc. destruct (first_part hk (hv ++ k ++ v ++ r) 4 Lk) as (F1 & S1). destruct (first_part hv (k ++ v ++ r) 4 Lv) as (F2 & S2).
  assert (S8 : skipn 8 (hk ++ hv ++ k ++ v ++ r) = k ++ v ++ r).
  { rewrite app_assoc. apply first_part. rewrite app_length. lia. }
  rewrite F1, S1, F2, S8. unfold hk, hv. rewrite !head_value by assumption. unfold blen. rewrite !Nat2N.id.
  destruct (first_part k (v ++ r) (length k) eq_refl) as (-> & ->). destruct (first_part v r (length v) eq_refl) as (-> & ->).
  destruct (Nat.ltb_spec (length (le4 4 (N.of_nat (length k) mod 2 ^ 32) ++ le4 4 (N.of_nat (length v) mod 2 ^ 32) ++ k ++ v ++ r)) 8) as [C|_]; [rewrite !app_length, !le4_length in C; lia|].
  destruct (Nat.ltb_spec (length (k ++ v ++ r)) (length k)) as [C|_]; [rewrite app_length in C; lia|]. destruct (Nat.ltb_spec (length (v ++ r)) (length v)) as [C|_]; [rewrite app_length in C; lia|]. reflexivity.
Qed.
Lemma read_end s : s <> 0 -> read_entry (mkProvider true s []) = Done (None, mkProvider false 0 []).
Proof. intros Hs. unfold read_entry. cbn [p_open p_size p_data]. destruct (N.eqb_spec s 0); [contradiction|]. reflexivity. Qed.

(** ** Merging *)
Lemma set_nth_same {A} (l : list A) i x y : nth_error l i = Some y -> nth_error (set_nth l i x) i = Some x.
Proof. revert i. induction l as [|z l IH]; intros [|i]; cbn; try discriminate; auto. Qed.
Lemma set_nth_other {A} (l : list A) i j x : i <> j -> nth_error (set_nth l i x) j = nth_error l j.
Proof. revert i j. induction l as [|z l IH]; intros [|i] [|j] N; cbn; try reflexivity; [lia|]. apply IH. lia. Qed.
Lemma set_nth_length {A} (l : list A) i x : length (set_nth l i x) = length l.
Proof. revert i. induction l as [|z l IH]; intros [|i]; cbn; auto. Qed.
Lemma remove_nth_perm {A} (l : list A) i x : nth_error l i = Some x -> Permutation l (x :: remove_nth l i).
Proof.
  intros E. apply nth_error_split in E as (l1 & l2 & -> & <-). unfold remove_nth. rewrite firstn_app, firstn_all, Nat.sub_diag. cbn [firstn]. rewrite app_nil_r. rewrite skipn_app. rewrite skipn_all2 by lia. replace (S (length l1) - length l1)%nat with 1%nat by lia. cbn [skipn app]. symmetry. apply Permutation_middle.
Qed.
Definition pending (rest : nat -> list entry) (q : list (entry * nat)) : list entry := flat_map (fun x => fst x :: rest (snd x)) q.
Definition served (files : list (option provider)) (rest : nat -> list entry) (x : entry * nat) : Prop :=
  exists s, s <> 0 /\ nth_error files (snd x) = Some (Some (mkProvider true s (file_bytes (rest (snd x))))) /\ Forall fits (rest (snd x)) /\ in_order (fst x :: rest (snd x)).
Lemma pending_perm rest q q' : Permutation q q' -> Permutation (pending rest q) (pending rest q').
Proof. intros P. unfold pending. now apply Permutation_flat_map. Qed.
Lemma pending_ext rest rest' q : (forall x, In x q -> rest (snd x) = rest' (snd x)) -> pending rest q = pending rest' q.
Proof. intros H. unfold pending. induction q as [|x q IH]; [reflexivity|]. cbn [flat_map]. rewrite H by now left. rewrite IH; [reflexivity|]. intros y Hy. apply H. now right. Qed.
Lemma pending_ge files rest q e : Forall (served files rest) q -> (forall y, In y q -> pair_lt (fst y) e = false) -> forall z, In z (pending rest q) -> pair_lt z e = false.
Proof.
  intros S L z Hz. unfold pending in Hz. apply in_flat_map in Hz as (y & Hy & Hz). rewrite Forall_forall in S. destruct (S y Hy) as (s & _ & _ & _ & O). apply sorted_cons_inv in O as (_ & O). destruct Hz as [ <- |Hz]; [now apply L|]. apply (lt_false_trans e (fst y) z); [now apply L|now apply O].
Qed.
Section Merge.
  Variable pick : list (entry * nat) -> nat.
  Hypothesis P : least_first pick.
  Lemma drain_ok fuel : forall q files rest, (length (pending rest q) <= fuel)%nat -> NoDup (map snd q) -> Forall (served files rest) q ->
    exists l files', drain pick fuel q files = Done (l, files') /\ in_order l /\ Permutation l (pending rest q)
      /\ length files' = length files /\ (forall i, In i (map snd q) -> nth_error files' i = Some None) /\ (forall i, ~ In i (map snd q) -> nth_error files' i = nth_error files i).
  Proof.
    induction fuel as [|fuel IH]; intros q files rest Hf Nd SV.
    - destruct q as [|x q]; [|cbn in Hf; lia]. exists [], files. cbn. repeat split; [constructor|constructor|intros i []].
    - destruct q as [|x0 q0]; [exists [], files; cbn; repeat split; [constructor|constructor|intros i []]|]. set (q := x0 :: q0) in *. assert (Nq : q <> []) by discriminate. clearbody q. clear x0 q0.
      destruct (P q Nq) as ([e i] & Ex & Lx). cbn [fst] in Lx. pose proof (remove_nth_perm q (pick q) (e, i) Ex) as Pq. set (q' := remove_nth q (pick q)) in *.
      assert (S' : Forall (served files rest) ((e, i) :: q')) by (eapply Permutation_Forall; eassumption). apply Forall_cons_iff in S' as (Si & Sq').
      assert (Nd' : NoDup (map snd ((e, i) :: q'))) by (eapply Permutation_NoDup; [apply Permutation_map; exact Pq|exact Nd]). cbn [map snd] in Nd'. apply NoDup_cons_iff in Nd' as (Ni & Nd').
      assert (Ge : forall z, In z (pending rest q) -> pair_lt z e = false) by (apply (pending_ge files); [exact SV|exact Lx]).
      assert (Pp : Permutation (pending rest q) (e :: rest i ++ pending rest q')) by exact (pending_perm rest _ _ Pq).
      assert (Hf' : (length (rest i) + length (pending rest q') <= fuel)%nat) by (apply Permutation_length in Pp; cbn [length] in Pp; rewrite app_length in Pp; lia).
      destruct Si as (s & Hs & Ef & Ft & O). cbn [fst snd] in *.
      assert (IN : forall j, In j (map snd q) <-> j = i \/ In j (map snd q')).
      { intros j. split; intros I; [apply (Permutation_in _ (Permutation_map snd Pq)) in I as [ <- |I]; auto|]. apply (Permutation_in _ (Permutation_sym (Permutation_map snd Pq))). destruct I as [ -> |I]; [now left|now right]. }
      assert (D : drain pick (S fuel) q files = obind (read_entry (mkProvider true s (file_bytes (rest i)))) (fun '(next, p) =>
                 obind (match next with Some n => drain pick fuel (q' ++ [(n, i)]) (set_nth files i (Some p)) | None => drain pick fuel q' (set_nth files i None) end) (fun '(l, files) => Done (e :: l, files)))).
      { destruct q as [|x0 q0]; [contradiction|]. cbn [drain]. rewrite Ex. cbn [nth_error]. now rewrite Ef. }
      rewrite D. clear D. destruct (rest i) as [|n r] eqn:Er.
      + cbn [file_bytes map concat]. rewrite read_end by exact Hs. cbn [obind].
        destruct (IH q' (set_nth files i None) rest) as (l & f' & E & O' & Pl & Ln & X1 & X2); [cbn [length] in Hf'; lia|exact Nd'| |].
        { apply Forall_forall. intros y Hy. rewrite Forall_forall in Sq'. destruct (Sq' y Hy) as (s' & A1 & A2 & A3). exists s'. split; [exact A1|]. split; [|exact A3]. rewrite set_nth_other; [exact A2|]. intros Ei. apply Ni. rewrite Ei. now apply in_map. }
        rewrite E. cbn [obind]. exists (e :: l), f'. split; [reflexivity|]. split.
        { constructor; [exact O'|]. apply Forall_forall. intros z Hz. apply Ge. apply (Permutation_in _ (Permutation_sym Pp)). right. cbn [app]. now apply (Permutation_in _ Pl). }
        split; [rewrite Pp; constructor; exact Pl|]. split; [now rewrite Ln, set_nth_length|]. split.
        * intros j Hj. apply IN in Hj. destruct (in_dec Nat.eq_dec j (map snd q')) as [I|I]; [now apply X1|]. destruct Hj as [ -> |Hj]; [|contradiction]. rewrite X2 by exact Ni. now apply (set_nth_same _ _ _ _ Ef).
        * intros j Hj. assert (~ In j (map snd q') /\ j <> i) as (J1 & J2) by (split; intros X; apply Hj, IN; auto). rewrite X2 by exact J1. apply set_nth_other; congruence.
      + cbn [file_bytes map concat]. apply Forall_cons_iff in Ft as (Fn & Fr). rewrite read_record by assumption. cbn [obind]. change (concat (map file_record r)) with (file_bytes r).
        set (rest' := fun j => if Nat.eq_dec j i then r else rest j). assert (Ri : rest' i = r) by (unfold rest'; destruct (Nat.eq_dec i i); congruence).
        assert (Re : forall y, In y q' -> rest' (snd y) = rest (snd y)) by (intros y Hy; unfold rest'; destruct (Nat.eq_dec (snd y) i) as [Ei|]; [|reflexivity]; exfalso; apply Ni; rewrite <- Ei; now apply in_map).
        assert (Pe : Permutation (pending rest' (q' ++ [(n, i)])) (n :: r ++ pending rest q')).
        { unfold pending at 1. rewrite flat_map_app. cbn [flat_map fst snd]. rewrite Ri, app_nil_r. change (flat_map (fun x => fst x :: rest' (snd x)) q') with (pending rest' q'). rewrite (pending_ext rest' rest q' Re). rewrite Permutation_app_comm. reflexivity. }
        destruct (IH (q' ++ [(n, i)]) (set_nth files i (Some (mkProvider true s (file_bytes r)))) rest') as (l & f' & E & O' & Pl & Ln & X1 & X2).
        { apply Permutation_length in Pe. cbn [length] in Pe, Hf'. rewrite app_length in Pe. lia. }
        { rewrite map_app. cbn [map snd]. apply (Permutation_NoDup (l := i :: map snd q')); [apply Permutation_cons_append|]. now constructor. }
        { apply Forall_app. split.
          - apply Forall_forall. intros y Hy. rewrite Forall_forall in Sq'. destruct (Sq' y Hy) as (s' & A1 & A2 & A3). exists s'. split; [exact A1|]. rewrite (Re y Hy). split; [|exact A3]. rewrite set_nth_other; [exact A2|]. intros Ei. apply Ni. rewrite Ei. now apply in_map.
          - constructor; [|constructor]. exists s. cbn [fst snd]. rewrite Ri. split; [exact Hs|]. split; [now apply (set_nth_same _ _ _ _ Ef)|]. split; [exact Fr|]. now apply sorted_cons_inv in O. }
        rewrite E. cbn [obind]. exists (e :: l), f'. split; [reflexivity|].
        assert (Pl' : Permutation l (n :: r ++ pending rest q')) by (rewrite Pl; exact Pe).
        split.
        { constructor; [exact O'|]. apply Forall_forall. intros z Hz. apply Ge. apply (Permutation_in _ (Permutation_sym Pp)). right. now apply (Permutation_in _ Pl'). }
        split; [rewrite Pp; constructor; exact Pl'|]. split; [now rewrite Ln, set_nth_length|].
        assert (IN' : forall j, In j (map snd (q' ++ [(n, i)])) <-> In j (map snd q)) by (intros j; rewrite IN, map_app, in_app_iff; cbn [map snd In]; intuition).
        split.
        * intros j Hj. apply X1. now apply IN'.
        * intros j Hj. rewrite X2 by (rewrite IN'; exact Hj). apply set_nth_other. intros <-. apply Hj, IN. auto.
  Qed.
End Merge.

(** ** Collecting *)
Definition nonempty (e : entry) : Prop := entry_size e <> 0.
Definition weight (l : list entry) : N := fold_right (fun e n => entry_size e + n) 0 l.
Lemma weight_app l1 l2 : weight (l1 ++ l2) = weight l1 + weight l2.
Proof. induction l1 as [|e l1 IH]; [reflexivity|]. cbn [app weight fold_right]. unfold weight in IH. rewrite IH. unfold weight. lia. Qed.
Lemma total_app l1 l2 : total_size (l1 ++ l2) = total_size l1 + total_size l2.
Proof. induction l1 as [|e l1 IH]; [reflexivity|]. cbn [app total_size fold_right]. unfold total_size in IH. rewrite IH. unfold total_size. lia. Qed.
Lemma total_weight l : total_size l = weight l + 8 * N.of_nat (length l).
Proof. induction l as [|e l IH]; [reflexivity|]. cbn [total_size weight fold_right length]. unfold total_size, weight in IH. rewrite IH. lia. Qed.
Lemma weight_zero l : Forall nonempty l -> weight l = 0 -> l = [].
Proof. intros F H. destruct l as [|e l]; [reflexivity|]. apply Forall_cons_iff in F as (Fe & _). unfold nonempty in Fe. cbn in H. lia. Qed.
Definition spilled (g : list entry) : option provider := Some (provider_flush (sort g) (weight g)).
Definition spill_ok (g : list entry) : Prop := g <> [].
(** What a collector holds: sorted files and a buffer. *)
Definition holds (c : collector) (l : list entry) : Prop :=
  exists groups, c_files c = map spilled groups /\ concat groups ++ c_buffer c = l /\ Forall spill_ok groups /\ c_bytes c = weight (c_buffer c).
Lemma flush_holds c l : holds c l -> Forall nonempty l -> holds (flush_buffer c) l /\ (c_buffer (flush_buffer c) = []) /\ (c_files c <> [] -> c_files (flush_buffer c) <> []).
Proof.
  intros (gs & Ef & El & Ok & Eb) F. unfold flush_buffer. rewrite Eb. destruct (N.eqb_spec (weight (c_buffer c)) 0) as [E|E].
  - split; [exists gs; auto|]. split; [|auto]. apply weight_zero; [|exact E]. rewrite <- El in F. now apply Forall_app in F.
  - cbn [c_buffer c_files]. split; [|split; [reflexivity|intros _ X; now apply app_eq_nil in X as (_ & X)]]. exists (gs ++ [c_buffer c]). cbn [c_files c_buffer c_bytes]. rewrite Ef, map_app. split; [reflexivity|]. split; [rewrite concat_app; cbn [concat]; now rewrite !app_nil_r|]. split; [|reflexivity]. apply Forall_app. split; [exact Ok|]. constructor; [|constructor]. intros X. rewrite X in E. now apply E.
Qed.
Lemma collect_holds c l e : holds c l -> Forall nonempty (l ++ [e]) -> total_size (l ++ [e]) < 2 ^ 64 -> holds (collect c e) (l ++ [e]).
Proof.
  intros (gs & Ef & El & Ok & Eb) F B. unfold collect. set (c1 := mkCollector _ _ _ _ _).
  assert (H : holds c1 (l ++ [e])).
  { exists gs. unfold c1. cbn [c_files c_buffer c_bytes]. split; [exact Ef|]. split; [now rewrite app_assoc, El|]. split; [exact Ok|]. rewrite Eb, weight_app. cbn [weight fold_right]. rewrite N.add_0_r. apply N.mod_small. rewrite total_weight, <- El, !weight_app in B. cbn [weight fold_right] in B. lia. }
  destruct (_ <=? _); [|exact H]. now apply flush_holds.
Qed.
Lemma flush_size c : c_size (flush_buffer c) = c_size c /\ c_limit (flush_buffer c) = c_limit c.
Proof. unfold flush_buffer. now destruct (_ =? _). Qed.
Lemma collect_size c e : c_size (collect c e) = (c_size c + 1) mod 2 ^ 64 /\ c_limit (collect c e) = c_limit c.
Proof. unfold collect. destruct (_ <=? _); [|split; reflexivity]. destruct (flush_size (mkCollector (c_limit c) (c_buffer c ++ [e]) ((c_bytes c + entry_size e) mod 2 ^ 64) (c_files c) ((c_size c + 1) mod 2 ^ 64))) as (-> & ->). split; reflexivity. Qed.
Lemma collects_hold es : forall c l, holds c l -> Forall nonempty (l ++ es) -> total_size (l ++ es) < 2 ^ 64 -> c_size c + N.of_nat (length es) < 2 ^ 64 ->
  holds (fold_left collect es c) (l ++ es) /\ c_size (fold_left collect es c) = c_size c + N.of_nat (length es) /\ c_limit (fold_left collect es c) = c_limit c.
Proof.
  induction es as [|e es IH]; intros c l H F B Z; [cbn; rewrite app_nil_r, N.add_0_r; auto|]. cbn [fold_left]. assert (A : l ++ e :: es = (l ++ [e]) ++ es) by now rewrite <- app_assoc. rewrite A in *. cbn [length] in Z.
  destruct (collect_size c e) as (Sz & Lm). rewrite N.mod_small in Sz by lia.
  assert (H1 : holds (collect c e) (l ++ [e])) by (apply collect_holds; [exact H|now apply Forall_app in F|rewrite total_app in B; lia]).
  destruct (IH (collect c e) (l ++ [e]) H1 F B) as (X & Y & W); [rewrite Sz; lia|]. split; [exact X|]. rewrite Y, W, Sz, Lm. cbn [length]. split; [lia|reflexivity].
Qed.

(** ** Loading *)
Lemma concat_length_in {A} (gs : list (list A)) g : In g gs -> exists l1 l2, concat gs = l1 ++ g ++ l2.
Proof. intros H. apply in_split in H as (a & b & ->). exists (concat a), (concat b). now rewrite concat_app. Qed.
Definition group_ok (g : list entry) : Prop := g <> [] /\ Forall fits g /\ total_size g < 2 ^ 64.
Lemma fill_ok gs : forall i, Forall group_ok gs -> exists q files, fill_queue i (map spilled gs) = Done (q, files)
  /\ map snd q = seq i (length gs) /\ length files = length gs
  /\ exists rest, Permutation (pending rest q) (concat gs)
  /\ Forall (fun x => exists s, s <> 0 /\ nth_error files (snd x - i) = Some (Some (mkProvider true s (file_bytes (rest (snd x))))) /\ Forall fits (rest (snd x)) /\ in_order (fst x :: rest (snd x))) q.
Proof.
  induction gs as [|g gs IH]; intros i G.
  - exists [], []. cbn. repeat split. exists (fun _ => []). split; [constructor|constructor].
  - apply Forall_cons_iff in G as ((Ng & Fg & Bg) & G). destruct (IH (S i) G) as (q & files & E & Es & Ln & rest & Pr & Sv). cbn [map fill_queue spilled]. unfold provider_flush.
    pose proof (sort_perm g) as Ps. pose proof (sort_sorted g) as Os. destruct (sort g) as [|e r] eqn:Eg; [apply Permutation_nil in Ps; contradiction|].
    assert (Fs : Forall fits (e :: r)) by (eapply Permutation_Forall; [apply Permutation_sym; exact Ps|exact Fg]). apply Forall_cons_iff in Fs as (Fe & Fr).
    set (s := (weight g + N.of_nat (length (e :: r)) * 8) mod 2 ^ 64). assert (Hs : s <> 0).
    { unfold s. rewrite (Permutation_length Ps). rewrite total_weight in Bg. rewrite N.mod_small by lia. destruct g; [contradiction|]. cbn [length]. lia. }
    cbn [file_bytes map concat]. rewrite read_record by assumption. cbn [obind]. rewrite E. cbn [obind]. exists ((e, i) :: q), (Some (mkProvider true s (concat (map file_record r))) :: files). split; [reflexivity|].
    split; [cbn [map snd length seq]; now rewrite Es|]. split; [cbn [length]; now rewrite Ln|].
    exists (fun j => if Nat.eq_dec j i then r else rest j).
    assert (Hi : forall x, In x q -> (i < snd x)%nat) by (intros x Hx; apply (in_map snd) in Hx; rewrite Es in Hx; apply in_seq in Hx; lia).
    split.
    + set (rest' := fun j => if Nat.eq_dec j i then r else rest j). change (pending rest' ((e, i) :: q)) with ((e :: rest' i) ++ pending rest' q). assert (Ri : rest' i = r) by (unfold rest'; destruct (Nat.eq_dec i i); congruence). rewrite Ri. cbn [concat]. rewrite Ps. apply Permutation_app_head. rewrite <- Pr. apply Permutation_refl'. apply pending_ext. intros x Hx. specialize (Hi x Hx). unfold rest'. destruct (Nat.eq_dec (snd x) i); [lia|reflexivity].
    + constructor.
      * exists s. cbn [fst snd]. rewrite Nat.sub_diag. destruct (Nat.eq_dec i i); [|contradiction]. cbn [nth_error]. auto.
      * apply Forall_forall. intros x Hx. rewrite Forall_forall in Sv. specialize (Hi x Hx). destruct (Nat.eq_dec (snd x) i); [lia|]. destruct (Sv x Hx) as (s' & A1 & A2 & A3). exists s'. split; [exact A1|]. split; [|exact A3]. replace (snd x - i)%nat with (S (snd x - S i)) by lia. exact A2.
Qed.
Lemma groups_ok gs l : concat gs = l -> Forall spill_ok gs -> Forall fits l -> total_size l < 2 ^ 64 -> Forall group_ok gs.
Proof.
  intros E Ok F B. apply Forall_forall. intros g Hg. destruct (concat_length_in gs g Hg) as (a & b & C). rewrite E in C. rewrite Forall_forall in Ok. split; [now apply Ok|]. rewrite C in F, B. apply Forall_app in F as (_ & F). apply Forall_app in F as (F & _). split; [exact F|]. rewrite !total_app in B. lia.
Qed.

Section Loading.
  Variable pick : list (entry * nat) -> nat.
  Hypothesis P : least_first pick.
  Lemma load_holds fuel c l : holds c l -> (c_size c = 0 -> l = []) -> Forall nonempty l -> Forall fits l -> total_size l < 2 ^ 64 -> (length l <= fuel)%nat ->
    exists c', load pick fuel c = Done (sort l, c') /\ c_limit c' = c_limit c /\ c_buffer c' = [] /\ c_bytes c' = 0
      /\ (c_files c = [] -> c_files c' = [] /\ c_size c' = c_size c) /\ (c_files c <> [] -> c_size c <> 0 -> exists n, c_files c' = repeat None (S n)).
  Proof using P.
    intros H Z F Ft B Hf. unfold load. destruct (N.eqb_spec (c_size c) 0) as [E0|E0].
    - specialize (Z E0). subst l. destruct H as (gs & Ef & El & Ok & Eb). apply app_eq_nil in El as (El & Ebuf). assert (gs = []) by (destruct gs as [|g gs]; [reflexivity|]; apply Forall_cons_iff in Ok as (Ok & _); cbn in El; apply app_eq_nil in El as (El & _); contradiction). subst gs. exists c. rewrite Eb, Ebuf. repeat split; auto. now rewrite Ef.
    - destruct (c_files c) as [|f fs] eqn:Efs.
      + destruct H as (gs & Ef & El & Ok & Eb). rewrite Efs in Ef. destruct gs; [|discriminate]. cbn [concat app] in El. rewrite El. eexists. split; [reflexivity|]. cbn. repeat split; auto. intros X. now contradiction X.
      + destruct (flush_holds c l H F) as (H' & Eb' & Nf). specialize (Nf ltac:(rewrite Efs; discriminate)). destruct H' as (gs & Ef & El & Ok & Ew). rewrite Eb' in El, Ew. rewrite app_nil_r in El.
        pose proof (groups_ok gs l El Ok Ft B) as Gk. destruct (fill_ok gs 0 Gk) as (q & files & E & Es & Ln & rest & Pr & Sv). rewrite Ef, E. cbn [obind].
        destruct (drain_ok pick P fuel q files rest) as (l' & f' & D & O & Pl & Ln' & X1 & X2).
        { rewrite (Permutation_length Pr), El. exact Hf. }
        { rewrite Es. apply seq_NoDup. }
        { eapply Forall_impl; [|exact Sv]. intros x (s & A1 & A2 & A3). exists s. rewrite Nat.sub_0_r in A2. auto. }
        rewrite D. cbn [obind]. eexists. split.
        { do 2 f_equal. apply sorted_unique; [exact O|apply sort_sorted|]. rewrite Pl, Pr, El. symmetry. apply sort_perm. }
        cbn [c_limit c_buffer c_bytes c_files c_size]. destruct (flush_size c) as (_ & ->). rewrite Eb', Ew. repeat split; auto; [discriminate|discriminate|]. intros _ _.
        destruct gs as [|g gs]; [rewrite Ef in Nf; now contradiction Nf|]. exists (length gs). change (S (length gs)) with (length (g :: gs)). rewrite <- Ln, <- Ln'. apply nth_ext with (d := None) (d' := None); [now rewrite repeat_length|]. intros n Hn. rewrite nth_repeat. assert (I : In n (map snd q)) by (rewrite Es; apply in_seq; rewrite Ln', Ln in Hn; lia). apply X1 in I. now apply nth_error_nth.
  Qed.
End Loading.
