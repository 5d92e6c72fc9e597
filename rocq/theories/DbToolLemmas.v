(** The statements about the database tool in their final form, and cases. *)
From Coq Require Import Sorting.Sorted.
From stdpp Require Import gmap.
From Verif Require Import Base BaseFacts DbTable DbModel HashStateModel DbToolModel DbToolSpec DbToolProofs.

Lemma copy_exact_lemma : forall (o : copy_options) (tgt : env) before n t after,
  c_create o = false -> c_upsert o = false -> (forall m u, In (m, u) (before ++ after) -> ~ wanted o m u) ->
  wanted o n t -> in_order t -> t_rows t <> [] -> countable_rows o t -> (tgt n = None \/ tgt n = Some (mkTbl (t_flags t) [])) ->
  exists last commits, do_copy o (before ++ (n, t) :: after) (Some tgt) = (last :: commits, true)
    /\ last n = Some t /\ (forall m, m <> n -> last m = tgt m)
    /\ Forall (fun y => (exists p, prefix_of p (t_rows t) /\ y n = Some (mkTbl (t_flags t) p)) /\ forall m, m <> n -> y m = tgt m) commits.
Proof. intros o tgt before n t after Hc Hu S. apply copy_exact; [exact Hc|exact Hu| |]; intros m u I; apply S, in_or_app; [now left|now right]. Qed.
Lemma copy_upsert_lemma : forall (o : copy_options) (tgt : env) before n t t' after,
  c_create o = false -> c_upsert o = true -> (forall m u, In (m, u) (before ++ after) -> ~ wanted o m u) ->
  wanted o n t -> in_order t -> t_rows t <> [] -> countable_rows o t -> tgt n = Some t' -> t_flags t' = t_flags t -> in_order t' ->
  exists last commits u, do_copy o (before ++ (n, t) :: after) (Some tgt) = (last :: commits, true)
    /\ last n = Some u /\ t_flags u = t_flags t /\ in_order u
    /\ (dupsort t = true -> forall e, In e (t_rows u) <-> In e (t_rows t) \/ In e (t_rows t'))
    /\ (dupsort t = false -> forall k, lookup (t_rows u) k = match lookup (t_rows t) k with Some v => Some v | None => lookup (t_rows t') k end)
    /\ forall m, m <> n -> last m = tgt m.
Proof. intros o tgt before n t t' after Hc Hu S. apply copy_upsert; [exact Hc|exact Hu| |]; intros m u I; apply S, in_or_app; [now left|now right]. Qed.

(** A walk visits one record after the other: [for_each] does not. *)
Definition collect (s : list entry) (e : entry) : bool * list entry := (true, s ++ [e]).
Definition two_rows : table := [([1], [7; 0; 0; 0]); ([2], [9; 0; 0; 0])].
Lemma for_each_wrong : ordered two_rows /\ for_each two_rows collect [] <> walk collect two_rows [].
Proof. split; [repeat constructor|]. vm_compute. discriminate. Qed.
Lemma for_count_few {S} (func : S -> entry -> bool * S) t s k fuel : (forall s e, fst (func s e) = true) -> t <> [] -> (length t <= k)%nat -> N.of_nat k < 2 ^ 64 -> (k < fuel)%nat ->
  exists s', for_count fuel t func (N.of_nat k) s = Some (N.of_nat k, s').
Proof.
  intros H Ht Hl Hk Hf. destruct t as [|d t]; [congruence|]. unfold for_count. rewrite count_enough by assumption. pose proof (walk_count func (repeat d k) H s) as W. rewrite repeat_length in W. destruct (walk func (repeat d k) s) as [n s']. cbn in W. subst n. eauto.
Qed.
Lemma for_count_many {S} (func : S -> entry -> bool * S) t s k fuel : (forall s e, fst (func s e) = true) -> (k < length t)%nat -> N.of_nat k < 2 ^ 64 -> N.of_nat fuel <= N.of_nat k + 2 ^ 64 ->
  for_count fuel t func (N.of_nat k) s = None.
Proof. intros H Hl Hk Hf. destruct t as [|d t]; [cbn in Hl; lia|]. now apply count_overruns. Qed.
Lemma freelist_wrong : exists ps free, ordered free /\ f_pages (get_free_info ps free) <> sum (map pages_of free) mod 2 ^ 64.
Proof. exists 4096, two_rows. split; [repeat constructor|]. vm_compute. discriminate. Qed.

(** Cases. *)
Definition no_tables : env := fun _ => None.
Definition opts0 : copy_options := mkCopy false false false [] [] 3.
Definition opts1 : copy_options := mkCopy false false false [] [] 1000.
Definition optsu : copy_options := mkCopy false false true [[65]] [] 1000.
Definition table_a : tbl := mkTbl 0 two_rows.
Definition table_d : tbl := mkTbl 4 [([1], [7]); ([1], [9]); ([2], [1])].
Definition env_a : env := set_table no_tables [65] (Some table_a).
Lemma table_d_in_order : in_order table_d.
Proof. unfold in_order. change (dupsort table_d) with true. repeat constructor. Qed.
Lemma table_a_in_order : in_order table_a.
Proof. unfold in_order. change (dupsort table_a) with false. repeat constructor. Qed.
Lemma wanted_all n t : wanted opts1 n t /\ wanted opts0 n t.
Proof. split; (split; [now left|]; split; [intros []|reflexivity]). Qed.
Lemma countable_a : countable_rows opts0 table_a /\ countable_rows opts1 table_a /\ countable_rows optsu table_a.
Proof. unfold countable_rows. repeat split; repeat constructor; discriminate. Qed.
(** Three records of a table with duplicates, in batches: two commits. *)
Lemma copy_case : exists last commits, do_copy opts0 [([68], table_d)] (Some env_a) = (last :: commits, true) /\ last [68] = Some table_d /\ last [65] = Some table_a /\ length commits = 1%nat.
Proof. vm_compute. eexists _, _. split; [reflexivity|]. split; [reflexivity|]. split; reflexivity. Qed.
Lemma upsert_case : exists last commits, do_copy optsu [([64], table_d); ([65], mkTbl 0 [([1], [3]); ([3], [4])])] (Some env_a) = (last :: commits, true)
  /\ last [65] = Some (mkTbl 0 [([1], [3]); ([2], [9; 0; 0; 0]); ([3], [4])]) /\ last [64] = None.
Proof. vm_compute. eexists _, _. split; [reflexivity|]. split; reflexivity. Qed.
Lemma copy_two_lemma : exists last, do_copy opts1 [([65], table_a); ([68], table_d)] (Some no_tables) = ([last], false) /\ last [65] = Some table_a /\ last [68] = None.
Proof. vm_compute. eexists. split; [reflexivity|]. split; reflexivity. Qed.
Lemma clear_case : exists e', do_clear env_a [[65]; [66]] false false [[120]; [121]] = Some e' /\ e' [65] = Some (mkTbl 0 []).
Proof. vm_compute. eexists. split; reflexivity. Qed.
Lemma clear_no_case : exists e', do_clear env_a [[65]; [66]] true false [[120]; [78]] = Some e' /\ e' [65] = Some table_a.
Proof. vm_compute. eexists. split; reflexivity. Qed.
(** Nobody confirmed, and the records are gone. *)
Lemma clear_silent_lemma : (forall e names drop, do_clear e names drop false [] = do_clear e names drop true [])
  /\ exists e', do_clear env_a [[65]] false false [] = Some e' /\ e' [65] = Some (mkTbl 0 []) /\ env_a [65] = Some table_a.
Proof. split; [exact clear_silence|]. vm_compute. eexists. repeat split; reflexivity. Qed.
Lemma compact_replace_lemma : forall (A : Type) (f : @files A) c nobak, f Source = Some c ->
  exists f' l, do_compact f true nobak = (f' :: l, false) /\ f' Source = None /\ f' Target = Some c.
Proof. intros A f c nobak H. exact (compact_replace f c nobak H). Qed.
Lemma compact_case : exists f' l, do_compact (fun p => match p with Source => Some 5 | _ => None end) true false = (f' :: l, false) /\ f' Source = None /\ f' Backup = Some 5 /\ f' Target = Some 5.
Proof. vm_compute. eexists _, _. repeat split; reflexivity. Qed.
