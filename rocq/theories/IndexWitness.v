(** Concrete cases for the indexing stages. *)
From Coq Require Import Permutation Sorting.Sorted.
From stdpp Require Import gmap.
From Verif Require Import Base BaseFacts DbTable DbModel DbSpec DbProofs DbCases EtlModel EtlSpec EtlLemmas BufferModel BufferCases IndexModel IndexSpec IndexProofs IndexLemmas IndexCases.

(** A serialisation of sets: every element in unary *)
Definition unary (n : N) : bytes := repeat 1 (N.to_nat n) ++ [0].
Definition un_write (b : gset N) : bytes := concat (map unary (elements b)).
Fixpoint un_parse (b : bytes) (n : N) : list N := match b with [] => [] | x :: r => if x =? 0 then n :: un_parse r 0 else un_parse r (n + 1) end.
Definition un_read (b : bytes) : gset N := list_to_set (un_parse b 0).
Definition un_size (b : gset N) : N := blen (un_write b).
Lemma parse_ones k : forall n r, un_parse (repeat 1 k ++ 0 :: r) n = (n + N.of_nat k) :: un_parse r 0.
Proof. induction k as [|k IH]; intros n r; cbn [repeat app un_parse]. - change (0 =? 0) with true. cbn iota. f_equal. lia. - change (1 =? 0) with false. cbn iota. rewrite IH. f_equal. lia. Qed.
Lemma parse_all l : un_parse (concat (map unary l)) 0 = l.
Proof. induction l as [|n l IH]; [reflexivity|]. cbn [map concat]. unfold unary at 1. rewrite <- app_assoc. cbn [app]. rewrite parse_ones, IH, N.add_0_l, N2Nat.id. reflexivity. Qed.
Lemma un_faithful : faithful un_size un_write un_read.
Proof. split; [|reflexivity]. intros b. unfold un_read, un_write. rewrite parse_all. apply leibniz_equiv. apply list_to_set_elements. Qed.
Lemma un_bound (b : gset N) m : (forall n, n ∈ b -> n <= m) -> un_size b <= (m + 1) * (m + 1).
Proof.
  intros H. unfold un_size, un_write. assert (L : forall l, (forall n, In n l -> n <= m) -> blen (concat (map unary l)) <= N.of_nat (length l) * (m + 1)).
  { induction l as [|n l IH]; intros F; [apply N.le_0_l|]. cbn [map concat length]. unfold blen in *. rewrite app_length. unfold unary at 1. rewrite app_length, repeat_length. cbn [length]. specialize (IH (fun x Hx => F x (or_intror Hx))). pose proof (F n (or_introl eq_refl)). rewrite Nat2N.inj_succ, N.mul_succ_l. unfold bytes in *. lia. }
  assert (Fb : forall n, In n (elements b) -> n <= m) by (intros n I; apply H; apply elem_of_elements; now apply elem_of_list_In). specialize (L _ Fb). etransitivity; [exact L|]. apply N.mul_le_mono_r.
  assert (ND : List.NoDup (elements b)) by (apply NoDup_ListNoDup, NoDup_elements). assert (Inc : incl (elements b) (map N.of_nat (seq 0 (S (N.to_nat m))))) by (intros n I; apply in_map_iff; exists (N.to_nat n); split; [apply N2Nat.id|]; apply in_seq; pose proof (Fb n I); lia).
  pose proof (NoDup_incl_length ND Inc) as X. rewrite map_length, seq_length in X. lia.
Qed.
Definition in_place (m : bitmaps) : bitmaps := m.
Lemma in_place_order : some_order in_place.
Proof. intros l. apply Permutation_refl. Qed.

Definition changes_db : database := put (put (put empty_db kPlainAccountChangeSet (be_fixed 8 2) (addr 9 ++ [7])) kPlainAccountChangeSet (be_fixed 8 2) (addr 3)) kPlainAccountChangeSet (be_fixed 8 0) (addr 3 ++ [1]).
Lemma changes_wf : wf_db changes_db. Proof. repeat apply put_wf. apply empty_wf. Qed.
Lemma changes_are k v : In (k, v) (changes_db kPlainAccountChangeSet) <-> (k = be_fixed 8 0 /\ v = addr 3 ++ [1]) \/ (k = be_fixed 8 2 /\ v = addr 3) \/ (k = be_fixed 8 2 /\ v = addr 9 ++ [7]).
Proof.
  assert (E : changes_db kPlainAccountChangeSet = [(be_fixed 8 0, addr 3 ++ [1]); (be_fixed 8 2, addr 3); (be_fixed 8 2, addr 9 ++ [7])]) by (vm_compute; reflexivity). rewrite E. split.
  - intros [X|[X|[X|[]]]]; apply pair_equal_spec in X as ( <- & <- ); auto.
  - intros [( -> & -> )|[( -> & -> )|( -> & -> )]]; [now left|right; now left|right; right; now left].
Qed.
Lemma addr_split n s : List.length (addr n) = 20%nat /\ addr n ++ s = addr n ++ s. Proof. split; [apply be_fixed_length|reflexivity]. Qed.
Lemma changes_shape_case : account_change_set (changes_db kPlainAccountChangeSet).
Proof.
  split; [|vm_compute; reflexivity]. intros k v I. apply changes_are in I as [( -> & -> )|[( -> & -> )|( -> & -> )]].
  - exists 0, (addr 3), [1]. split; [lia|]. split; [reflexivity|]. split; [apply be_fixed_length|reflexivity].
  - exists 2, (addr 3), []. split; [lia|]. split; [reflexivity|]. split; [apply be_fixed_length|]. symmetry. apply app_nil_r.
  - exists 2, (addr 9), [7]. split; [lia|]. split; [reflexivity|]. split; [apply be_fixed_length|reflexivity].
Qed.
Lemma changes_chunk : one_chunk un_size un_read changes_db.
Proof.
  intros a b La H. assert (B : forall n, n ∈ b -> n <= 2).
  { intros n Hn. destruct (H n Hn) as [(Hm & s & I)|(v & I & _)]; [|exfalso; assert (E : changes_db kAccountHistory = []) by reflexivity; rewrite E in I; destruct I]. apply changes_are in I as [(E & _)|[(E & _)|(E & _)]]; apply be8_inj in E; lia. }
  split; [pose proof (un_bound b 2 B); lia|]. intros n Hn. specialize (B n Hn). lia.
Qed.
Lemma changes_case : wf_db changes_db /\ get_stage_progress changes_db kAccountHistoryKey = Done 0 /\ account_change_set (changes_db kPlainAccountChangeSet) /\ one_chunk un_size un_read changes_db /\ changes_db kAccountHistory = []
  /\ account_changed changes_db (addr 3) 0 /\ faithful un_size un_write un_read /\ some_order in_place /\ least_first least_of.
Proof.
  split; [exact changes_wf|]. split; [vm_compute; reflexivity|]. split; [exact changes_shape_case|]. split; [exact changes_chunk|]. split; [reflexivity|]. split; [split; [lia|]; exists [1]; apply changes_are; auto|]. split; [exact un_faithful|]. split; [exact in_place_order|exact least_of_first].
Qed.
(** The index after the run: account 3 in blocks 0 and 2, account 9 in block 2. *)
Lemma changes_run : match stage_account_history least_of in_place un_size un_write un_read changes_db with
  | Done (r, d) => r = kStageSuccess /\ d kAccountHistory = [(open_chunk (addr 3), un_write {[0; 2]}); (open_chunk (addr 9), un_write {[2]})]
  | _ => False end.
Proof. vm_compute. auto. Qed.

(** Changes begin with block 1: nothing is ever indexed. *)
Definition from_one_db : database := put empty_db kPlainAccountChangeSet (be_fixed 8 1) (addr 3 ++ [1]).
Lemma from_one : wf_db from_one_db /\ account_changed from_one_db (addr 3) 1 /\ (forall pick walk size_in_bytes bm_write bm_read, some_order walk -> stage_account_history pick walk size_in_bytes bm_write bm_read from_one_db = Done (kStageSuccess, from_one_db)) /\ from_one_db kAccountHistory = [].
Proof.
  assert (W : wf_db from_one_db) by (apply put_wf, empty_wf). split; [exact W|]. assert (E : from_one_db kPlainAccountChangeSet = [(be_fixed 8 1, addr 3 ++ [1])]) by reflexivity.
  split; [split; [lia|]; exists [1]; rewrite E; now left|]. split; [|reflexivity]. intros pick walk sz bw br Hw. apply (account_history_gap pick walk sz bw br Hw from_one_db 0 W); [vm_compute; reflexivity|]. rewrite E. intros v [X|[]]. apply pair_equal_spec in X as (X & _). apply be8_inj in X; lia.
Qed.
(** Progress 0 is taken for an index that has not been started: after a run for block 0, blocks with accounts of smaller address
    make the stage throw, again and again. *)
Definition zero_db : database := put (put (put empty_db kPlainAccountChangeSet (be_fixed 8 0) (addr 9)) kAccountHistory (open_chunk (addr 9)) (un_write {[0]})) kPlainAccountChangeSet (be_fixed 8 1) (addr 3).
Lemma zero_throws : wf_db zero_db /\ account_change_set (zero_db kPlainAccountChangeSet) /\ stage_account_history least_of in_place un_size un_write un_read zero_db = Throws.
Proof.
  split; [repeat apply put_wf; apply empty_wf|]. split; [|vm_compute; reflexivity].
  assert (E : zero_db kPlainAccountChangeSet = [(be_fixed 8 0, addr 9); (be_fixed 8 1, addr 3)]) by (vm_compute; reflexivity). rewrite E. split; [|vm_compute; reflexivity].
  intros k v [X|[X|[]]]; apply pair_equal_spec in X as ( <- & <- ).
  - exists 0, (addr 9), []. split; [lia|]. split; [reflexivity|]. split; [apply be_fixed_length|]. symmetry. apply app_nil_r.
  - exists 1, (addr 3), []. split; [lia|]. split; [reflexivity|]. split; [apply be_fixed_length|]. symmetry. apply app_nil_r.
Qed.
(** A size that is over the limit for two blocks *)
Definition wide_db : database := put (put empty_db kPlainAccountChangeSet (be_fixed 8 0) (addr 3)) kPlainAccountChangeSet (be_fixed 8 3000) (addr 3).
Lemma wide_case : wf_db wide_db /\ (forall k v, In (k, v) (wide_db kPlainAccountChangeSet) -> exists n s, n < 2 ^ 32 /\ k = be_fixed 8 n /\ v = addr 3 ++ s) /\ (forall n, n ∈ ({[0; 3000]} : gset N) <-> account_changed wide_db (addr 3) n) /\ 1950 < un_size {[0; 3000]} /\ un_size {[0; 3000]} < 2 ^ 31.
Proof.
  assert (E : wide_db kPlainAccountChangeSet = [(be_fixed 8 0, addr 3); (be_fixed 8 3000, addr 3)]) by (vm_compute; reflexivity).
  split; [repeat apply put_wf; apply empty_wf|]. split; [|split; [|split; vm_compute; reflexivity]].
  - rewrite E. intros k v [X|[X|[]]]; apply pair_equal_spec in X as ( <- & <- ); [exists 0, []|exists 3000, []]; (split; [lia|]); (split; [reflexivity|]); symmetry; apply app_nil_r.
  - intros n. unfold account_changed. rewrite E, elem_of_union, !elem_of_singleton. split.
    + intros [ -> | -> ]; (split; [lia|]); exists []; rewrite app_nil_r; [now left|right; now left].
    + intros (Hn & s & [X|[X|[]]]); apply pair_equal_spec in X as (X & _); apply be8_inj in X; lia.
Qed.
(** Records under the keys of the access layer *)
Definition keyed_db : database := put (put (put (put empty_db kPlainStorageChangeSet (storage_change_key 1 (addr 3) 1) (word 1 ++ [5])) kLogs (log_key 1 0) [1]) kBlockBodies (block_key_hash 1 (word 7)) [2]) kCanonicalHashes (block_key 1) (word 7).
Lemma keyed_case : wf_db keyed_db /\ (forall k v, In (k, v) (keyed_db kPlainStorageChangeSet) -> List.length k = 36%nat) /\ (forall k v, In (k, v) (keyed_db kLogs) -> List.length k = 12%nat) /\ (forall k v, In (k, v) (keyed_db kBlockBodies) -> List.length k = 40%nat)
  /\ keyed_db kPlainStorageChangeSet <> [] /\ keyed_db kLogs <> [] /\ keyed_db kBlockBodies <> [] /\ lookup (keyed_db kCanonicalHashes) (be_fixed 8 1) = Some (word 7).
Proof.
  split; [repeat apply put_wf; apply empty_wf|].
  split; [intros k v [X|[]]; apply pair_equal_spec in X as ( <- & _ ); vm_compute; reflexivity|]. split; [intros k v [X|[]]; apply pair_equal_spec in X as ( <- & _ ); vm_compute; reflexivity|]. split; [intros k v [X|[]]; apply pair_equal_spec in X as ( <- & _ ); vm_compute; reflexivity|].
  split; [vm_compute; discriminate|]. split; [vm_compute; discriminate|]. split; [vm_compute; discriminate|]. vm_compute. reflexivity.
Qed.
