(** State roots of the two buffers: concrete cases. *)
From stdpp Require Import gmap.
From Verif Require Import Base BaseFacts RlpModel TypesModel TypesSpec TrieLemmas DbTable StateModel StateSpec StateLemmas MemBufModel MemBufSpec BufferModel BufferCases StateRootSpec StateRootCases MemRootSpec MemRootModel.

(** A hash with the right value for the empty string. *)
Definition code_hash (b : bytes) : bytes := match b with [] => kEmptyHash | _ => flip_hash b end.
Lemma code_hash_32 : hash_32 code_hash.
Proof. intros [|x b]; [|apply flip_32]. split; [reflexivity|]. unfold wf_bytes. vm_compute. repeat constructor. Qed.

Lemma block_world : exists past w, replay code_hash (past9 false) (world9 None 0 false false) [(1, b_create)] [repeat VUnit 7] past w /\ w_acct w 9 = Some contract9 /\ w_current w 9 5 = 7 /\ world_range w /\ no_world_collision code_hash w.
Proof.
  assert (R : exists w1 sn, arun code_hash (contract_in (world9 None 0 false false)) (world9 None 0 false false, []) b_create = Some (repeat VUnit 7, (w1, sn)) /\ weq w1 (world9 (Some contract9) 7 false true)).
  { eexists _, _. split; [run_ref; reflexivity|]. constructor; try reflexivity; split9. }
  destruct R as (w1 & sn & R & H). assert (B : block_ok (past9 false) (world9 None 0 false false) w1).
  { eapply weq_block_ok; [reflexivity|apply weq_refl|exact (weq_sym _ _ H)|]. repeat split; unfold contract_in, w_exists, past9; split9. }
  eexists _, (next_world w1). split; [eapply replay_cons; [exact R|exact B|apply replay_nil]|].
  assert (Ha : forall a, w_acct (next_world w1) a = if a =? 9 then Some contract9 else None) by (intros a; exact (e_acct _ _ H a)).
  assert (Hc : forall a k, w_current (next_world w1) a k = if (a =? 9) && (k =? 5) then 7 else 0) by (intros a k; exact (e_cur _ _ H a k)).
  split; [now rewrite Ha|]. split; [now rewrite Hc|]. split; split.
  - intros a c. rewrite Ha. destruct (N.eqb_spec a 9) as [ -> |]; [|discriminate]. intros E. apply (inj Some) in E. subst c. vm_compute. auto.
  - intros a l. rewrite Hc. destruct (a =? 9); cbn [andb]; [|congruence]. destruct (N.eqb_spec l 5) as [ -> |]; [|congruence]. intros _. vm_compute. auto.
  - intros a b. rewrite !Ha. destruct (N.eqb_spec a 9); [|congruence]. destruct (N.eqb_spec b 9); [|congruence]. congruence.
  - intros a l l'. rewrite !Hc. destruct (a =? 9); cbn [andb]; [|congruence]. destruct (N.eqb_spec l 5); [|congruence]. destruct (N.eqb_spec l' 5); [|congruence]. congruence.
Qed.
Lemma block_case : hash_32 code_hash /\ mem_ok code_hash (fun _ => []) 1000 mem_empty (past9 false) (world9 None 0 false false) /\ codes_ok code_hash (fun _ => []) (concat (map snd [(1, b_create)])) /\ total_ops [(1, b_create)] <= 1000
  /\ (exists past w, replay code_hash (past9 false) (world9 None 0 false false) [(1, b_create)] [repeat VUnit 7] past w /\ w_acct w 9 = Some contract9 /\ w_current w 9 5 = 7 /\ world_range w /\ no_world_collision code_hash w)
  /\ exists m, mreplay code_hash mem_empty [(1, b_create)] [repeat VUnit 7] m.
Proof.
  split; [exact code_hash_32|]. split; [apply empty9_ok; reflexivity|]. split; [split; [reflexivity|]; split; [reflexivity|]; intros c H; vm_compute in H; destruct H|]. split; [vm_compute; discriminate|]. split; [exact block_world|]. apply mrun_exists. vm_compute. reflexivity.
Qed.
(** The orders in which the maps may be visited exist. *)
Lemma account_order_exists {A} (m : gmap N A) : account_order m (map_to_list m).
Proof. split; [apply NoDup_fst_map_to_list|]. intros a x. rewrite <- elem_of_list_In. apply elem_of_map_to_list. Qed.
Definition slots_at (st : gmap (N * N * N) N) (a i : N) : list (N * N) :=
  concat (map (fun e => if (fst (fst (fst e)) =? a) && (snd (fst (fst e)) =? i) then [(snd (fst e), snd e)] else []) (map_to_list st)).
Lemma slot_order_exists st : slot_order st (slots_at st).
Proof.
  intros a i. assert (I : forall l v, In (l, v) (slots_at st a i) <-> st !! (a, i, l) = Some v).
  { intros l v. unfold slots_at. rewrite in_concat. rewrite <- elem_of_map_to_list. split.
    - intros (x & J & K). apply in_map_iff in J as ([[[a' i'] l'] v'] & <- & J). cbn [fst snd] in K. destruct (N.eqb_spec a' a) as [ -> |]; [|destruct K]. destruct (N.eqb_spec i' i) as [ -> |]; [|destruct K]. destruct K as [E|[]]. apply pair_equal_spec in E as ( -> & -> ). now apply elem_of_list_In.
    - intros J. exists [(l, v)]. split; [|now left]. apply in_map_iff. exists (a, i, l, v). split; [cbn [fst snd]; now rewrite !N.eqb_refl|now apply elem_of_list_In]. }
  split; [|exact I]. unfold slots_at. pose proof (NoDup_fst_map_to_list st) as N. revert N. clear. induction (map_to_list st) as [|[[[a' i'] l'] v'] l IH]; [constructor|]. cbn [map fst concat]. intros N. apply list.NoDup_cons in N as (N & Nd). specialize (IH Nd).
  cbn [fst snd]. destruct (N.eqb_spec a' a) as [ -> |]; [|exact IH]. destruct (N.eqb_spec i' i) as [ -> |]; [|exact IH]. cbn [andb app map fst]. apply list.NoDup_cons. split; [|exact IH]. intros E. apply N. apply elem_of_list_In in E. apply in_map_iff in E as ([x y] & <- & E). cbn [fst] in *. apply in_concat in E as (z & E & K). apply in_map_iff in E as ([[[a' i'] l'] v''] & <- & E). cbn [fst snd] in K.
  destruct (N.eqb_spec a' a) as [ -> |]; [|destruct K]. destruct (N.eqb_spec i' i) as [ -> |]; [|destruct K]. destruct K as [E'|[]]. apply pair_equal_spec in E' as ( -> & _). apply elem_of_list_In, in_map_iff. exists (a, i, x, v''). auto.
Qed.
(** A memory buffer with the state of StateRootCases. *)
Definition root_mem : membuf := mkMem {[3 := c_account; 9 := old_account]} ∅ ∅ {[(3, 1, 1) := 20; (3, 1, 2) := 30; (3, 1, 17) := 40]} ∅ ∅ 0.
Lemma root_mem_case : in_range (mem_state root_mem) /\ no_hash_collision flip_hash (mem_state root_mem) /\ (forall k, m_storage root_mem !! k <> Some 0) /\ accounts (mem_state root_mem) 3 = Some c_account /\ slots (mem_state root_mem) 3 1 17 = 40.
Proof.
  assert (A : forall a acc, accounts (mem_state root_mem) a = Some acc -> (a = 3 /\ acc = c_account) \/ (a = 9 /\ acc = old_account)).
  { intros a acc. cbn [accounts mem_state root_mem m_accounts]. rewrite lookup_insert_Some, lookup_singleton_Some. intros [( <- & <- )|(_ & <- & <- )]; auto. }
  assert (St : forall k v, m_storage root_mem !! k = Some v -> (k = (3, 1, 1) /\ v = 20) \/ (k = (3, 1, 2) /\ v = 30) \/ (k = (3, 1, 17) /\ v = 40)).
  { intros k v. cbn [m_storage root_mem]. rewrite !lookup_insert_Some, lookup_singleton_Some. intros [( <- & <- )|(_ & [( <- & <- )|(_ & <- & <- )])]; auto. }
  assert (Sl : forall a i l, slots (mem_state root_mem) a i l <> 0 -> (l = 1 \/ l = 2 \/ l = 17) /\ slots (mem_state root_mem) a i l < 2 ^ 256).
  { intros a i l. cbn [slots mem_state]. destruct (m_storage root_mem !! (a, i, l)) as [v|] eqn:E; cbn [default from_option id]; [|congruence]. intros _. apply St in E as [(E & -> )|[(E & -> )|(E & -> )]]; apply pair_equal_spec in E as (_ & -> ); (split; [auto|reflexivity]). }
  split; [|split; [split|split; [|split; vm_compute; reflexivity]]].
  - intros a acc E. apply A in E as [( -> & -> )|( -> & -> )]; (split; [reflexivity|]; split; [vm_compute; repeat split; repeat constructor|]); intros l Z; apply Sl in Z as (Z & V); (split; [|exact V]); destruct Z as [ -> |[ -> | -> ]]; reflexivity.
  - intros a b. destruct (accounts (mem_state root_mem) a) eqn:Ea; [|congruence]. destruct (accounts (mem_state root_mem) b) eqn:Eb; [|congruence]. intros _ _. apply A in Ea, Eb. destruct Ea as [( -> & _)|( -> & _)], Eb as [( -> & _)|( -> & _)]; intros E; try reflexivity; vm_compute in E; discriminate.
  - intros a acc l l' _ Z Z'. apply Sl in Z as (Z & _), Z' as (Z' & _). destruct Z as [ -> |[ -> | -> ]], Z' as [ -> |[ -> | -> ]]; intros E; try reflexivity; vm_compute in E; discriminate.
  - intros k E. apply St in E as [(_ & E)|[(_ & E)|(_ & E)]]; discriminate.
Qed.
(** A buffer in which a slot was set to zero. *)
Definition zeroed : buffer := mkBuf {[3 := Some c_account]} {[(3, 1, 1) := 0; (3, 1, 2) := 30]} ∅ ∅ ∅ ∅ ∅ ∅ ∅ 0 ∅.
Lemma zeroed_case : b_storage zeroed !! (3, 1, 1) = Some 0 /\ (forall l v, b_storage zeroed !! (3, 1, l) = Some v -> l < 2 ^ 256 /\ v < 2 ^ 256)
  /\ (forall l l' v v', b_storage zeroed !! (3, 1, l) = Some v -> b_storage zeroed !! (3, 1, l') = Some v' -> flip_hash (be_fixed 32 l) = flip_hash (be_fixed 32 l') -> l = l').
Proof.
  assert (St : forall l v, b_storage zeroed !! (3, 1, l) = Some v -> (l = 1 /\ v = 0) \/ (l = 2 /\ v = 30)).
  { intros l v. cbn [b_storage zeroed]. rewrite !lookup_insert_Some, lookup_singleton_Some. intros [(E & <- )|(_ & E & <- )]; apply pair_equal_spec in E as (_ & <- ); auto. }
  split; [reflexivity|]. split.
  - intros l v E. apply St in E as [( -> & -> )|( -> & -> )]; split; reflexivity.
  - intros l l' v v' E E'. apply St in E as [( -> & _)|( -> & _)], E' as [( -> & _)|( -> & _)]; intros X; try reflexivity; vm_compute in X; discriminate.
Qed.
Lemma cleared b a i l initial : initial <> 0 -> b_storage (BufferModel.update_storage b a i l initial 0) !! (a, i, l) = Some 0.
Proof. intros H. unfold BufferModel.update_storage. destruct (N.eqb_spec 0 initial); [congruence|]. cbn [b_storage]. apply lookup_insert. Qed.
