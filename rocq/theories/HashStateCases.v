(** Final forms and concrete cases for the HashState stage. *)
From stdpp Require Import gmap.
From Coq Require Import Permutation Sorting.Sorted.
From Verif Require Import Base BaseFacts RlpModel TypesModel TypesSpec TypesProofs DbTable DbModel DbSpec DbProofs DbCases EtlModel EtlSpec EtlProofs EtlLemmas BufferModel BufferSpec BufferCases UnwindModel UnwindProofs UnwindProofs2 UnwindCases HashStateModel HashStateSpec HashStateProofs HashStateProofs2.

Section General.
  Context (keccak : bytes -> bytes) (Hk : hash_length keccak) (pick : list (entry * nat) -> nat) (Pk : least_first pick).
  (** Slots are not found where the trie looks for them. *)
  Lemma first_storage d d' n a i l s : wf_db d -> shapes d -> collectable (d kPlainState) -> collectable (d kPlainContractCode) -> n < 2 ^ 64 -> get_stage_progress d kExecutionKey = Done n -> d kHashedAccounts = [] -> d kHashedStorage = [] -> d kContractCode = [] -> get_stage_progress d kHashStateKey = Done 0 -> stage_hashstate keccak pick d = Done d' ->
    length a = 20%nat -> length i = 8%nat -> length l = 32%nat -> In (a ++ i, l ++ s) (d kPlainState) -> (forall v, ~ In (keccak a ++ i, v) (d' kHashedStorage)) /\ ~ storage_hashed keccak d d'.
  Proof using Hk Pk.
    intros W Sh Cs Cc Hn En Ea Es Ec P E La Li Ll I. destruct (first_run keccak Hk pick Pk d W Sh Cs Cc n d' Hn En Ea Es Ec P E) as (_ & _ & _ & _ & L & _).
    assert (N : forall v, ~ In (keccak a ++ i, v) (d' kHashedStorage)) by (intros v J; apply L in J; rewrite app_length, Hk, Li in J; discriminate). split; [exact N|]. intros H. apply (N (keccak l ++ s)). apply H. exists a, i, l, s. auto 8.
  Qed.
  (** A second run at block 0. *)
  Lemma run_twice d d' a v : wf_db d -> shapes d -> collectable (d kPlainState) -> collectable (d kPlainContractCode) -> get_stage_progress d kExecutionKey = Done 0 -> d kHashedAccounts = [] -> d kHashedStorage = [] -> d kContractCode = [] -> get_stage_progress d kHashStateKey = Done 0 -> stage_hashstate keccak pick d = Done d' ->
    length a = 20%nat -> In (a, v) (d kPlainState) -> stage_hashstate keccak pick d' = Throws.
  Proof using Hk Pk.
    intros W Sh Cs Cc En Ea Es Ec P E La I. destruct (first_run keccak Hk pick Pk d W Sh Cs Cc 0 d' (eq_refl : 0 < 2 ^ 64) En Ea Es Ec P E) as (A & _ & P' & W' & _ & O).
    assert (Os : d' kPlainState = d kPlainState) by (apply O; discriminate). assert (Oc : d' kPlainContractCode = d kPlainContractCode) by (apply O; discriminate).
    assert (Sh' : shapes d') by (destruct Sh; split; intros k w; rewrite O by discriminate; eauto).
    apply (not_appended keccak Hk pick Pk d' W' Sh') with (k := keccak a) (v := v) (a := a) (x := v); [now rewrite Os|now rewrite Oc|exact P'|exact La|now rewrite Os| |apply lex_lt_irrefl]. apply A. now exists a.
  Qed.
  (** Accounts that are gone stay in the hashed table. *)
  Lemma later_deleted d old p n d' a v : wf_db d -> shapes d -> p <> 0 -> p + 1 < 2 ^ 64 -> n < 2 ^ 64 -> get_stage_progress d kHashStateKey = Done p -> get_stage_progress d kExecutionKey = Done n -> account_changes d old p ->
    distinct_hashes keccak (fun a => length a = 20%nat /\ (lookup (d kPlainState) a <> None \/ old a <> None)) -> (forall a v, length a = 20%nat -> old a = Some v -> lookup (d kHashedAccounts) (keccak a) = Some v) ->
    stage_hashstate keccak pick d = Done d' -> length a = 20%nat -> old a = Some v -> lookup (d kPlainState) a = None -> lookup (d' kHashedAccounts) (keccak a) = Some v /\ (distinct_hashes keccak (fun b => length b = 20%nat) -> ~ accounts_hashed keccak d d').
  Proof using Hk.
    intros W Sh P0 P1 Hn Ep En Ac Hd Ho E La Eo Ea. destruct (later_run keccak Hk d old p n W Sh P0 P1 Hn Ep En Ac Hd Ho pick) as (d'' & E' & W' & _ & _ & _ & S' & _). rewrite E in E'. apply (f_equal (fun x => match x with Done y => y | _ => d end)) in E'. subst d''.
    pose proof (S' a v La Eo Ea) as L. split; [exact L|]. intros Hi H. apply lookup_spec in L; [|exact (wf_single d' kHashedAccounts W' eq_refl)]. apply H in L as (b & Lb & I & Eb). assert (b = a) by (apply Hi; auto). subst b.
    unfold lookup in Ea. destruct (find_first (d kPlainState) a (wf_multi d kPlainState W eq_refl)) as [(_ & N)|(pre & w & r & _ & X & _)]; [exact (N v I)|rewrite X in Ea; discriminate].
  Qed.
  Lemma later_storage d old p n d' : wf_db d -> shapes d -> p <> 0 -> p + 1 < 2 ^ 64 -> n < 2 ^ 64 -> get_stage_progress d kHashStateKey = Done p -> get_stage_progress d kExecutionKey = Done n -> account_changes d old p ->
    distinct_hashes keccak (fun a => length a = 20%nat /\ (lookup (d kPlainState) a <> None \/ old a <> None)) -> (forall a v, length a = 20%nat -> old a = Some v -> lookup (d kHashedAccounts) (keccak a) = Some v) ->
    stage_hashstate keccak pick d = Done d' -> d' kHashedStorage = d kHashedStorage.
  Proof using Hk.
    intros W Sh P0 P1 Hn Ep En Ac Hd Ho E. destruct (later_run keccak Hk d old p n W Sh P0 P1 Hn Ep En Ac Hd Ho pick) as (d'' & E' & _ & _ & _ & _ & _ & S' & _). rewrite E in E'. apply (f_equal (fun x => match x with Done y => y | _ => d end)) in E'. now subst d''.
  Qed.
  (** Unwinding loses what was there at the block. *)
  Lemma unwind_loses d h n a d' : wf_db d -> shapes d -> n < h -> n + 1 < 2 ^ 64 -> get_stage_progress d kHashStateKey = Done h -> (forall a v, length a = 20%nat -> lookup (d kPlainState) a = Some v -> exists i, extract_incarnation v = Ok i) ->
    unwind_hashstate keccak d n = Done (Some d') -> length a = 20%nat -> changed_after d n a -> lookup (d' kHashedAccounts) (keccak a) = None.
  Proof using Hk.
    intros W Sh Hh Hn Ep Dec E La C. destruct (unwind_run keccak Hk d h n W Sh Hh Hn Ep Dec) as (d'' & E' & W' & _ & A & _). rewrite E in E'. apply (f_equal (fun x => match x with Done (Some y) => y | _ => d end)) in E'. subst d''.
    apply lookup_none; [exact (wf_single d' kHashedAccounts W' eq_refl)|]. intros v I. apply A in I as (_ & F). now apply (F a).
  Qed.
End General.

(** *** Cases *)
Definition pad_hash (b : bytes) : bytes := firstn 32 (b ++ zeros 32).
Lemma pad_length : hash_length pad_hash.
Proof. intros b. unfold pad_hash, zeros. rewrite firstn_length, app_length, repeat_length. lia. Qed.
Lemma pad_inj (P : bytes -> Prop) : (forall a, P a -> length a = 20%nat) -> distinct_hashes pad_hash P.
Proof.
  intros L a b Pa Pb E. apply L in Pa, Pb. unfold pad_hash in E. rewrite !firstn_app, Pa, Pb in E. rewrite (firstn_all2 a), (firstn_all2 b) in E by lia. apply app_parts in E as (E & _); [exact E|lia].
Qed.
Definition first_db : database :=
  put (put (put (put (put empty_db kPlainState (addr 9) (encode_for_storage old_account false)) kPlainState (addr 3) (encode_for_storage c_account false))
    kPlainState (storage_prefix (addr 3) 1) (word 1 ++ [20])) kPlainContractCode (storage_prefix (addr 3) 1) c_hash) kSyncStageProgress kExecutionKey (be_fixed 8 2).
Lemma first_state k v : In (k, v) (first_db kPlainState) <-> (k = addr 9 /\ v = encode_for_storage old_account false) \/ (k = addr 3 /\ v = encode_for_storage c_account false) \/ (k = storage_prefix (addr 3) 1 /\ v = word 1 ++ [20]).
Proof.
  change (first_db kPlainState) with (put_dup (put_dup (put_dup [] (addr 9) (encode_for_storage old_account false)) (addr 3) (encode_for_storage c_account false)) (storage_prefix (addr 3) 1) (word 1 ++ [20])).
  rewrite !put_dup_in by (repeat apply put_dup_ordered; exact nil_dup). rewrite !entry_eq. cbn [In]. tauto.
Qed.
Lemma first_db_wf : wf_db first_db.
Proof. unfold first_db. repeat apply put_wf. apply empty_wf. Qed.
Lemma first_shapes : shapes first_db.
Proof.
  split.
  - intros k v I. apply first_state in I as [( -> & _)|[( -> & _)|( -> & -> )]]; [left; reflexivity|left; reflexivity|right; split; [reflexivity|]]. vm_compute. lia.
  - intros k v I. change (first_db kPlainContractCode) with [(storage_prefix (addr 3) 1, c_hash)] in I. destruct I as [E|[]]. apply pair_equal_spec in E as ( <- & _). reflexivity.
  - intros k v [].
  - intros k v [].
Qed.
Lemma first_collectable : collectable (first_db kPlainState) /\ collectable (first_db kPlainContractCode).
Proof. split; (split; [|vm_compute; reflexivity]); repeat constructor; vm_compute; reflexivity. Qed.
Lemma first_db_case : wf_db first_db /\ shapes first_db /\ collectable (first_db kPlainState) /\ collectable (first_db kPlainContractCode) /\ get_stage_progress first_db kExecutionKey = Done 2 /\ first_db kHashedAccounts = [] /\ first_db kHashedStorage = [] /\ first_db kContractCode = []
  /\ get_stage_progress first_db kHashStateKey = Done 0 /\ exists d', stage_hashstate pad_hash least_of first_db = Done d'.
Proof.
  split; [exact first_db_wf|]. split; [exact first_shapes|]. split; [apply first_collectable|]. split; [apply first_collectable|]. split; [vm_compute; reflexivity|]. split; [reflexivity|]. split; [reflexivity|]. split; [reflexivity|]. split; [vm_compute; reflexivity|].
  eexists. vm_compute. reflexivity.
Qed.
(** Account 9 changed and account 8 was deleted in block 2. *)
Definition later_old (a : bytes) : option bytes := if bytes_eqb a (addr 9) then Some (encode_for_storage old_account false) else if bytes_eqb a (addr 8) then Some (encode_for_storage e_account false) else None.
Definition later_db : database :=
  put (put (put (put (put (put (put empty_db kPlainState (addr 9) (encode_for_storage new_account false)) kHashedAccounts (pad_hash (addr 9)) (encode_for_storage old_account false)) kHashedAccounts (pad_hash (addr 8)) (encode_for_storage e_account false))
    kPlainAccountChangeSet (be_fixed 8 2) (addr 9 ++ encode_for_storage old_account true)) kPlainAccountChangeSet (be_fixed 8 2) (addr 8 ++ encode_for_storage e_account false)) kSyncStageProgress kHashStateKey (be_fixed 8 1)) kSyncStageProgress kExecutionKey (be_fixed 8 2).
Lemma later_wf : wf_db later_db.
Proof. unfold later_db. repeat apply put_wf. apply empty_wf. Qed.
Lemma later_state : later_db kPlainState = [(addr 9, encode_for_storage new_account false)].
Proof. reflexivity. Qed.
Lemma later_lookup a : lookup (later_db kPlainState) a = if bytes_eqb a (addr 9) then Some (encode_for_storage new_account false) else None.
Proof.
  rewrite later_state. unfold lookup, find. cbn [lower_bound fst]. destruct (eqb_spec a (addr 9)) as [ -> |N].
  - rewrite lex_lt_irrefl. cbn [fst]. now rewrite eqb_refl.
  - destruct (lex_lt (addr 9) a); [reflexivity|]. cbn [fst]. destruct (eqb_spec (addr 9) a); [congruence|reflexivity].
Qed.
Lemma later_records k v : In (k, v) (later_db kPlainAccountChangeSet) <-> k = be_fixed 8 2 /\ (v = addr 9 ++ encode_for_storage old_account true \/ v = addr 8 ++ encode_for_storage e_account false).
Proof.
  change (later_db kPlainAccountChangeSet) with (put_dup (put_dup [] (be_fixed 8 2) (addr 9 ++ encode_for_storage old_account true)) (be_fixed 8 2) (addr 8 ++ encode_for_storage e_account false)).
  rewrite !put_dup_in by (repeat apply put_dup_ordered; exact nil_dup). rewrite !entry_eq. cbn [In]. tauto.
Qed.
Lemma later_shapes : shapes later_db.
Proof.
  split.
  - intros k v I. rewrite later_state in I. destruct I as [E|[]]. apply pair_equal_spec in E as ( <- & _). now left.
  - intros k v [].
  - intros k v I. apply later_records in I as ( -> & I). split; [exists 2; split; [reflexivity|reflexivity]|]. destruct I as [ -> | -> ]; rewrite app_length; unfold addr; rewrite be_fixed_length; lia.
  - intros k v [].
Qed.
Lemma later_changes : account_changes later_db later_old 1.
Proof.
  split.
  - intros a La. rewrite later_lookup. unfold later_old. destruct (eqb_spec a (addr 9)) as [ -> |N9].
    + intros _. exists 2, (encode_for_storage old_account true). split; [reflexivity|]. split; [reflexivity|]. apply later_records. auto.
    + destruct (eqb_spec a (addr 8)) as [ -> |N8]; [|congruence]. intros _. exists 2, (encode_for_storage e_account false). split; [reflexivity|]. split; [reflexivity|]. apply later_records. auto.
  - intros a v _. rewrite later_lookup. destruct (bytes_eqb a (addr 9)); [|discriminate]. intros E. injection E as <-. exists 0. vm_compute. reflexivity.
Qed.
Lemma later_hashed a v : length a = 20%nat -> later_old a = Some v -> lookup (later_db kHashedAccounts) (pad_hash a) = Some v.
Proof.
  intros _. unfold later_old. destruct (eqb_spec a (addr 9)) as [ -> |N9]; [intros E; injection E as <-; vm_compute; reflexivity|]. destruct (eqb_spec a (addr 8)) as [ -> |N8]; [intros E; injection E as <-; vm_compute; reflexivity|discriminate].
Qed.
Lemma later_db_case : wf_db later_db /\ shapes later_db /\ get_stage_progress later_db kHashStateKey = Done 1 /\ get_stage_progress later_db kExecutionKey = Done 2 /\ account_changes later_db later_old 1 /\ (forall P : bytes -> Prop, (forall a, P a -> length a = 20%nat) -> distinct_hashes pad_hash P)
  /\ (forall a v, length a = 20%nat -> later_old a = Some v -> lookup (later_db kHashedAccounts) (pad_hash a) = Some v) /\ lookup (later_db kPlainState) (addr 9) <> later_old (addr 9) /\ later_old (addr 8) <> None /\ lookup (later_db kPlainState) (addr 8) = None.
Proof.
  split; [exact later_wf|]. split; [exact later_shapes|]. split; [vm_compute; reflexivity|]. split; [vm_compute; reflexivity|]. split; [exact later_changes|]. split; [exact pad_inj|]. split; [exact later_hashed|]. split; [vm_compute; discriminate|]. split; [vm_compute; discriminate|]. vm_compute. reflexivity.
Qed.
(** Unwinding block 2. *)
Lemma unwind_db_hashed_case : wf_db later_db /\ shapes later_db /\ get_stage_progress (put later_db kSyncStageProgress kHashStateKey (be_fixed 8 2)) kHashStateKey = Done 2 /\ changed_after later_db 1 (addr 9)
  /\ exists d', unwind_hashstate pad_hash (put later_db kSyncStageProgress kHashStateKey (be_fixed 8 2)) 1 = Done (Some d') /\ d' kHashedAccounts = [].
Proof.
  split; [exact later_wf|]. split; [exact later_shapes|]. split; [vm_compute; reflexivity|]. split; [|eexists; split; vm_compute; reflexivity]. exists 2, (encode_for_storage old_account true). split; [reflexivity|]. split; [reflexivity|]. apply later_records. auto.
Qed.
(** A contract with two slots. *)
Definition two_slots_db : database := put first_db kPlainState (storage_prefix (addr 3) 1) (word 2 ++ [30]).
Lemma two_slots_case : stage_hashstate pad_hash least_of two_slots_db = Throws.
Proof. vm_compute. reflexivity. Qed.
