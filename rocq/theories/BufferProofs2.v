(** Proofs about db::Buffer: what write_to_db leaves in the database. *)
From stdpp Require Import gmap sorting.
From Verif Require Import Base BaseFacts RlpModel TypesModel TypesSpec TypesProofs UtilModel UtilProofs DbTable DbModel DbSpec DbProofs BufferModel BufferSpec BufferProofs.

Lemma addr_len a : length (addr a) = 20%nat. Proof. apply be_fixed_length. Qed.
Lemma word_len a : length (word a) = 32%nat. Proof. apply be_fixed_length. Qed.
Lemma addr_inj a b : a < 2 ^ 160 -> b < 2 ^ 160 -> addr a = addr b -> a = b.
Proof. intros Ha Hb E. apply (f_equal be_to_N) in E. unfold addr in E. now rewrite !be_to_N_be_fixed_small in E by assumption. Qed.
Lemma word_inj a b : a < 2 ^ 256 -> b < 2 ^ 256 -> word a = word b -> a = b.
Proof. intros Ha Hb E. apply (f_equal be_to_N) in E. unfold word in E. now rewrite !be_to_N_be_fixed_small in E by assumption. Qed.
Lemma prefix_len a i : length (storage_prefix (addr a) i) = 28%nat.
Proof. unfold storage_prefix. rewrite app_length, addr_len, be_fixed_length. reflexivity. Qed.
Lemma prefix_inj a b i j : a < 2 ^ 160 -> b < 2 ^ 160 -> i < 2 ^ 64 -> j < 2 ^ 64 -> storage_prefix (addr a) i = storage_prefix (addr b) j -> a = b /\ i = j.
Proof.
  intros Ha Hb Hi Hj E. apply app_parts in E as (E & E2); [|now rewrite !addr_len]. split; [now apply addr_inj|now apply be8_inj].
Qed.
Lemma prefix_addr a b i : storage_prefix (addr b) i <> addr a.
Proof. intros E. apply (f_equal length) in E. rewrite prefix_len, addr_len in E. discriminate. Qed.

(** ** Erasing the first record of a key *)
Definition erase_first (t : table) (k : bytes) : table := match find t k with e :: _ => erase_at t e | [] => t end.
Lemma erase_first_sorted t k : dup_ordered t -> dup_ordered (erase_first t k).
Proof. intros H. unfold erase_first. destruct (find t k); [exact H|]. now apply filter_sorted. Qed.
Lemma erase_first_other t k k' v : dup_ordered t -> k' <> k -> In (k', v) (erase_first t k) <-> In (k', v) t.
Proof.
  intros H N. unfold erase_first. destruct (find_first t k H) as [(E & _)|(pre & w & r & E & Ef & _)]; [now rewrite E|]. rewrite Ef. rewrite erase_at_in. intuition congruence.
Qed.
Lemma erase_first_same t k : dup_ordered t -> (forall v w, In (k, v) t -> In (k, w) t -> v = w) -> forall v, ~ In (k, v) (erase_first t k).
Proof.
  intros H U v I. unfold erase_first in I. destruct (find_first t k H) as [(E & N)|(pre & w & r & E & Ef & _)].
  - rewrite E in I. now apply N in I.
  - rewrite Ef in I. apply erase_at_in in I as (N & I). apply N. f_equal. apply U; [exact I|]. rewrite E. apply in_or_app. right. now left.
Qed.

(** ** Accounts in the state table *)
Definition acc_target (b : buffer) (t : table) (a : N) (v : bytes) : Prop :=
  match b_accounts b !! a with None => In (addr a, v) t | Some acc => match acc with Some x => v = encode_for_storage x false | None => False end end.
Lemma write_account_sorted b t a : dup_ordered t -> dup_ordered (write_account b t a).
Proof.
  intros H. unfold write_account. destruct (b_accounts b !! a) as [[x|]|]; [|now apply erase_first_sorted|exact H]. apply put_dup_ordered. now apply erase_first_sorted.
Qed.
Lemma write_account_other b t a k v : dup_ordered t -> k <> addr a -> In (k, v) (write_account b t a) <-> In (k, v) t.
Proof.
  intros H N. unfold write_account. fold (erase_first t (addr a)). destruct (b_accounts b !! a) as [[x|]|]; [|now apply erase_first_other|reflexivity].
  rewrite put_dup_in by now apply erase_first_sorted. rewrite erase_first_other by assumption. intuition congruence.
Qed.
Lemma write_account_same b t a v : dup_ordered t -> one_per_address t -> In (addr a, v) (write_account b t a) <-> acc_target b t a v.
Proof.
  intros H U. unfold write_account, acc_target. fold (erase_first t (addr a)). destruct (b_accounts b !! a) as [[x|]|]; [| |reflexivity].
  - rewrite put_dup_in by now apply erase_first_sorted. pose proof (erase_first_same t (addr a) H (U a) v). intuition congruence.
  - pose proof (erase_first_same t (addr a) H (U a) v). intuition.
Qed.
Lemma write_account_unique b t a : dup_ordered t -> one_per_address t -> one_per_address (write_account b t a).
Proof.
  intros H U x v w. fold (addr x). destruct (bytes_dec (addr x) (addr a)) as [E|N].
  - rewrite E. rewrite !write_account_same by assumption. unfold acc_target. destruct (b_accounts b !! a) as [[c|]|]; [congruence|intros []|apply U].
  - rewrite !write_account_other by assumption. apply U.
Qed.

(** ** Slots *)
Lemma upsert_storage_sorted t p l v : dup_ordered t -> dup_ordered (upsert_storage_value t p l v).
Proof. intros H. unfold upsert_storage_value, find_multivalue. fold (erase_first t p). destruct (v =? 0); [now apply erase_first_sorted|]. apply put_dup_ordered. now apply erase_first_sorted. Qed.
Lemma upsert_storage_other t p l v k w : dup_ordered t -> k <> p -> In (k, w) (upsert_storage_value t p l v) <-> In (k, w) t.
Proof.
  intros H N. unfold upsert_storage_value, find_multivalue. fold (erase_first t p). destruct (v =? 0); [now apply erase_first_other|]. rewrite put_dup_in by now apply erase_first_sorted. rewrite erase_first_other by assumption. intuition congruence.
Qed.
Lemma write_slot_sorted b t k : dup_ordered t -> dup_ordered (write_slot b t k).
Proof. intros H. unfold write_slot. destruct (b_storage b !! k); [now apply upsert_storage_sorted|exact H]. Qed.
Lemma write_slot_other b t x k w : dup_ordered t -> (b_storage b !! x <> None -> k <> storage_prefix (addr x.1.1) x.1.2) -> In (k, w) (write_slot b t x) <-> In (k, w) t.
Proof. intros H N. unfold write_slot. destruct (b_storage b !! x); [apply upsert_storage_other; [exact H|now apply N]|reflexivity]. Qed.
Lemma slots_fold_sorted b l t : dup_ordered t -> dup_ordered (fold_left (write_slot b) l t).
Proof. revert t. induction l as [|x l IH]; intros t H; [exact H|]. apply IH. now apply write_slot_sorted. Qed.
Lemma slots_fold_other b l k w : forall t, dup_ordered t -> (forall x, In x l -> b_storage b !! x <> None -> k <> storage_prefix (addr x.1.1) x.1.2) -> In (k, w) (fold_left (write_slot b) l t) <-> In (k, w) t.
Proof.
  induction l as [|x l IH]; intros t H N; [reflexivity|]. cbn [fold_left]. rewrite IH; [|now apply write_slot_sorted|intros y Hy; apply N; now right]. apply write_slot_other; [exact H|]. apply N. now left.
Qed.

(** ** The whole state table *)
Lemma write_address_sorted b t a : dup_ordered t -> dup_ordered (write_address b t a).
Proof. intros H. unfold write_address. apply slots_fold_sorted. now apply write_account_sorted. Qed.
Lemma write_address_unique b t a : dup_ordered t -> one_per_address t -> one_per_address (write_address b t a).
Proof.
  intros H U x v w. unfold write_address. rewrite !slots_fold_other; try (now apply write_account_sorted); try (intros ? _ _ E; symmetry in E; now apply prefix_addr in E). now apply write_account_unique.
Qed.
Lemma write_address_acc b t a x v : dup_ordered t -> one_per_address t -> In (addr x, v) (write_address b t a) <-> (if bytes_eqb (addr x) (addr a) then acc_target b t a v else In (addr x, v) t).
Proof.
  intros H U. unfold write_address. rewrite slots_fold_other; [|now apply write_account_sorted|intros ? _ _ E; symmetry in E; now apply prefix_addr in E].
  destruct (eqb_spec (addr x) (addr a)) as [ -> |N]; [now apply write_account_same|now apply write_account_other].
Qed.
Lemma state_fold b l : forall t, dup_ordered t -> one_per_address t ->
  dup_ordered (fold_left (write_address b) l t) /\ one_per_address (fold_left (write_address b) l t)
  /\ (forall a v, a < 2 ^ 160 -> (forall x, In x l -> x < 2 ^ 160) -> In (addr a, v) (fold_left (write_address b) l t) <-> (if bool_decide (a ∈ l) then acc_target b t a v else In (addr a, v) t)).
Proof.
  induction l as [|x l IH]; intros t H U; [split; [exact H|]; split; [exact U|]; intros; now rewrite bool_decide_false by apply not_elem_of_nil|].
  cbn [fold_left]. destruct (IH (write_address b t x) (write_address_sorted b t x H) (write_address_unique b t x H U)) as (S1 & S2 & S3). split; [exact S1|]. split; [exact S2|].
  intros a v Ha Hl. rewrite S3; [|exact Ha|intros y Hy; apply Hl; now right]. assert (Hx : x < 2 ^ 160) by (apply Hl; now left).
  assert (W := write_address_acc b t x a v H U). destruct (N.eq_dec a x) as [ -> |N].
  - rewrite eqb_refl in W. rewrite (bool_decide_true (x ∈ x :: l)) by apply elem_of_list_here. destruct (bool_decide (x ∈ l)); [|exact W]. unfold acc_target in *. destruct (b_accounts b !! x) as [[c|]|]; [reflexivity|reflexivity|exact W].
  - assert (NE : addr a <> addr x) by (intros E; apply N; now apply addr_inj). apply eqb_false in NE. rewrite NE in W.
    assert (Eb : bool_decide (a ∈ x :: l) = bool_decide (a ∈ l)) by (apply bool_decide_ext; rewrite elem_of_cons; intuition). rewrite Eb. destruct (bool_decide (a ∈ l)); [|exact W]. unfold acc_target. destruct (b_accounts b !! a) as [[c|]|]; [reflexivity|reflexivity|exact W].
Qed.
Lemma addresses_in b a : In a (addresses_of b) <-> is_Some (b_accounts b !! a) \/ exists i l, is_Some (b_storage b !! (a, i, l)).
Proof.
  unfold addresses_of. rewrite <- elem_of_list_In. rewrite merge_sort_Permutation, elem_of_elements, elem_of_union, elem_of_dom, elem_of_map. split.
  - intros [H|([[x i] l] & E & H)]; [auto|]. right. cbn in E. subst x. exists i, l. now apply elem_of_dom.
  - intros [H|(i & l & H)]; [auto|]. right. exists (a, i, l). split; [reflexivity|]. now apply elem_of_dom.
Qed.
Lemma slots_in b a x : In x (slots_of b a) <-> x.1.1 = a /\ is_Some (b_storage b !! x).
Proof.
  unfold slots_of. rewrite <- elem_of_list_In, elem_of_list_filter, merge_sort_Permutation, elem_of_elements, elem_of_dom. reflexivity.
Qed.

Lemma state_table_accounts b t : wf_buffer b -> dup_ordered t -> one_per_address t ->
  dup_ordered (write_to_state_table b t) /\ one_per_address (write_to_state_table b t)
  /\ (forall a v, a < 2 ^ 160 -> In (addr a, v) (write_to_state_table b t) <-> acc_target b t a v).
Proof.
  intros W H U. destruct (state_fold b (addresses_of b) t H U) as (S1 & S2 & S3). split; [exact S1|]. split; [exact S2|]. intros a v Ha. unfold write_to_state_table. rewrite S3; [|exact Ha|].
  - destruct (bool_decide (a ∈ addresses_of b)) eqn:E; [reflexivity|]. apply bool_decide_eq_false in E. rewrite elem_of_list_In, addresses_in in E. unfold acc_target. destruct (b_accounts b !! a) as [x|] eqn:Ea; [|reflexivity]. exfalso. apply E. left. eauto.
  - intros x Hx. apply addresses_in in Hx as [(y & E)|(i & l & (v' & E))]; [now apply (wb_accounts b W) in E|now apply (wb_storage b W) in E].
Qed.
(** Contracts that are not in the buffer keep their records. *)
Lemma state_fold_untouched b l p w : forall t, dup_ordered t -> (forall x, p <> addr x) -> (forall x, is_Some (b_storage b !! x) -> p <> storage_prefix (addr x.1.1) x.1.2) ->
  In (p, w) (fold_left (write_address b) l t) <-> In (p, w) t.
Proof.
  induction l as [|x l IH]; intros t H N1 N2; [reflexivity|]. cbn [fold_left]. rewrite IH; [|now apply write_address_sorted|exact N1|exact N2]. unfold write_address.
  rewrite slots_fold_other; [apply write_account_other; [exact H|apply N1]|now apply write_account_sorted|]. intros y Hy Hs. apply N2. now apply slots_in in Hy.
Qed.
Lemma state_table_untouched b t a i w : wf_buffer b -> dup_ordered t -> a < 2 ^ 160 -> i < 2 ^ 64 -> (forall l, b_storage b !! (a, i, l) = None) ->
  In (storage_prefix (addr a) i, w) (write_to_state_table b t) <-> In (storage_prefix (addr a) i, w) t.
Proof.
  intros W H Ha Hi N. apply state_fold_untouched; [exact H|intros x E; now apply prefix_addr in E|]. intros [[x j] l] (v & E) X. cbn in X. destruct (wb_storage b W _ _ _ _ E) as (Hx & Hj & _ & _). apply prefix_inj in X as (<- & <-); [|assumption..]. now rewrite N in E.
Qed.
(** A contract with a single slot. *)
Lemma slots_fold_single b l p k v : forall t, dup_ordered t -> b_storage b !! k = Some v -> p = storage_prefix (addr k.1.1) k.1.2 ->
  (forall x, In x l -> p = storage_prefix (addr x.1.1) x.1.2 -> b_storage b !! x <> None -> x = k) ->
  (forall w w', In (p, w) t -> In (p, w') t -> w = w') ->
  (forall w, In (p, w) (fold_left (write_slot b) l t) <-> if bool_decide (k ∈ l) then v <> 0 /\ w = word k.2 ++ zeroless_view (word v) else In (p, w) t).
Proof.
  induction l as [|x l IH]; intros t H E Ep N U w; [now rewrite bool_decide_false by apply not_elem_of_nil|]. cbn [fold_left].
  assert (Nl : forall y, In y l -> p = storage_prefix (addr y.1.1) y.1.2 -> b_storage b !! y <> None -> y = k) by (intros y Hy; apply N; now right).
  destruct (decide (x = k)) as [ -> |Nk].
  - rewrite (bool_decide_true (k ∈ k :: l)) by apply elem_of_list_here.
    assert (S : forall w, In (p, w) (write_slot b t k) <-> v <> 0 /\ w = word k.2 ++ zeroless_view (word v)).
    { intros z. unfold write_slot. rewrite E. unfold upsert_storage_value, find_multivalue. rewrite <- Ep. fold (erase_first t p). pose proof (erase_first_same t p H U z) as Nz.
      destruct (N.eqb_spec v 0) as [ -> |Nv]; [intuition|]. rewrite put_dup_in by now apply erase_first_sorted. intuition congruence. }
    rewrite IH; [|now apply write_slot_sorted|exact E|exact Ep|exact Nl|].
    + destruct (bool_decide (k ∈ l)); [reflexivity|apply S].
    + intros z z' Hz Hz'. apply S in Hz, Hz'. destruct Hz as (_ & ->), Hz' as (_ & ->). reflexivity.
  - assert (S : forall z, In (p, z) (write_slot b t x) <-> In (p, z) t).
    { intros z. apply write_slot_other; [exact H|]. intros Hx Ex. apply Nk. apply N; [now left|exact Ex|exact Hx]. }
    rewrite IH; [|now apply write_slot_sorted|exact E|exact Ep|exact Nl|intros z z'; rewrite !S; apply U].
    assert (Eb : bool_decide (k ∈ x :: l) = bool_decide (k ∈ l)) by (apply bool_decide_ext; rewrite elem_of_cons; intuition congruence). rewrite Eb. destruct (bool_decide (k ∈ l)); [reflexivity|apply S].
Qed.
Lemma state_fold_single b a i l0 v p al : forall t, wf_buffer b -> dup_ordered t -> b_storage b !! (a, i, l0) = Some v -> p = storage_prefix (addr a) i ->
  (forall l, l <> l0 -> b_storage b !! (a, i, l) = None) -> (forall x, In x al -> x < 2 ^ 160) ->
  (forall w w', In (p, w) t -> In (p, w') t -> w = w') ->
  (forall w, In (p, w) (fold_left (write_address b) al t) <-> if bool_decide (a ∈ al) then v <> 0 /\ w = word l0 ++ zeroless_view (word v) else In (p, w) t).
Proof.
  intros t W H E Ep N Hal. revert t H. assert (Hk := wb_storage b W _ _ _ _ E). destruct Hk as (Ha & Hi & _ & _).
  induction al as [|x al IH]; intros t H U w; [now rewrite bool_decide_false by apply not_elem_of_nil|]. cbn [fold_left].
  assert (Hal' : forall y, In y al -> y < 2 ^ 160) by (intros y Hy; apply Hal; now right).
  assert (S : forall z, In (p, z) (write_address b t x) <-> if bool_decide (x = a) then v <> 0 /\ z = word l0 ++ zeroless_view (word v) else In (p, z) t).
  { intros z. unfold write_address. assert (S0 : forall z, In (p, z) (write_account b t x) <-> In (p, z) t) by (intros z'; apply write_account_other; [exact H|rewrite Ep; intros X; now apply prefix_addr in X]).
    assert (Same : forall y, p = storage_prefix (addr y.1.1) y.1.2 -> b_storage b !! y <> None -> y = (a, i, l0)).
    { intros [[y j] l] X Hy. cbn in X. destruct (b_storage b !! (y, j, l)) as [vy|] eqn:Ey; [|congruence]. destruct (wb_storage b W _ _ _ _ Ey) as (Hy' & Hj & _ & _). rewrite Ep in X. apply prefix_inj in X as (<- & <-); [|assumption..]. destruct (N.eq_dec l l0) as [ -> |Nl]; [reflexivity|]. rewrite (N l Nl) in Ey. discriminate. }
    rewrite (slots_fold_single b (slots_of b x) p (a, i, l0) v (write_account b t x) (write_account_sorted b t x H) E Ep (fun y _ => Same y)); [|intros z1 z2; rewrite !S0; apply U].
    assert (Eb : bool_decide ((a, i, l0) ∈ slots_of b x) = bool_decide (x = a)).
    { apply bool_decide_ext. rewrite elem_of_list_In, slots_in. cbn. split; [intros (-> & _); reflexivity|intros ->; split; [reflexivity|eauto]]. }
    rewrite Eb. destruct (bool_decide (x = a)); [reflexivity|apply S0]. }
  rewrite IH; [|exact Hal'|now apply write_address_sorted|].
  - destruct (decide (x = a)) as [ -> |Nx].
    + rewrite (bool_decide_true (a ∈ a :: al)) by apply elem_of_list_here. destruct (bool_decide (a ∈ al)); [reflexivity|]. rewrite S. now rewrite bool_decide_true.
    + assert (Eb : bool_decide (a ∈ x :: al) = bool_decide (a ∈ al)) by (apply bool_decide_ext; rewrite elem_of_cons; intuition congruence). rewrite Eb. destruct (bool_decide (a ∈ al)); [reflexivity|]. rewrite S. now rewrite bool_decide_false.
  - intros z z'. rewrite !S. destruct (bool_decide (x = a)); [intros (_ & ->) (_ & ->); reflexivity|apply U].
Qed.
