(** Concrete cases for db::Buffer, reads as of a block and bitmaps. *)
From stdpp Require Import gmap sorting.
From Verif Require Import Base BaseFacts RlpModel TypesModel TypesSpec UtilModel DbTable DbModel DbSpec DbProofs DbCases BufferModel BufferSpec BufferProofs BufferProofs2 BufferProofs3 BufferProofs4 BufferProofs5 BufferProofs6 BufferProofs7.

(** *** Two slots of a new contract: only the last one is in the database afterwards. *)
Definition two_slots : list buf_op := [OBegin 1; OStorage 3 1 1 0 5; OStorage 3 1 2 0 7].
Definition two_buf : buffer := buf_run buf_empty two_slots.
Lemma two_slots_ok : Forall fits_op two_slots /\ forall bm_read, honest bm_read empty_db None buf_empty two_slots.
Proof. split; [repeat constructor|]. intros bm. repeat split; reflexivity. Qed.
Lemma two_slots_lost bm_read :
  buf_read_storage bm_read empty_db None two_buf 3 1 1 = Done 5 /\ buf_read_storage bm_read empty_db None two_buf 3 1 2 = Done 7
  /\ read_storage bm_read (buf_write_to_db two_buf empty_db) 3 1 1 None = Done 0 /\ read_storage bm_read (buf_write_to_db two_buf empty_db) 3 1 2 None = Done 7.
Proof. split; [reflexivity|]. split; [reflexivity|]. split; vm_compute; reflexivity. Qed.
(** Updating the second of two slots: the first one is gone and the second one still has its old value. *)
Definition held_db : database := put (put empty_db kPlainState (storage_prefix (addr 3) 1) (word 1 ++ [5])) kPlainState (storage_prefix (addr 3) 1) (word 2 ++ [6]).
Definition stale_slots : list buf_op := [OBegin 1; OStorage 3 1 2 6 7].
Lemma stale_ok : wf_db held_db /\ Forall fits_op stale_slots /\ forall bm_read, honest bm_read held_db None buf_empty stale_slots.
Proof. split; [apply put_wf, put_wf, empty_wf|]. split; [repeat constructor|]. intros bm. repeat split. Qed.
Lemma stale_read bm_read :
  read_storage bm_read held_db 3 1 1 None = Done 5 /\ read_storage bm_read held_db 3 1 2 None = Done 6
  /\ read_storage bm_read (buf_write_to_db (buf_run buf_empty stale_slots) held_db) 3 1 1 None = Done 0
  /\ read_storage bm_read (buf_write_to_db (buf_run buf_empty stale_slots) held_db) 3 1 2 None = Done 6.
Proof. split; [reflexivity|]. split; [reflexivity|]. split; vm_compute; reflexivity. Qed.

(** *** A history that meets the conditions of the write-out *)
Definition c_hash : bytes := repeat 7 32.
Definition c_account : account := mkAccount 1 1000 c_hash 1.
Definition e_account : account := mkAccount 4 250 kEmptyHash 0.
Definition creation : list buf_op := [OBegin 7; OStorage 3 1 1 0 5; OCode 3 1 c_hash [96; 0]; OAccount 3 None (Some c_account); OAccount 9 None (Some e_account)].
Lemma c_wf : wf_account c_account /\ wf_account e_account.
Proof. unfold wf_account, u64, u256, hash32, wf_bytes. repeat split; try reflexivity; repeat constructor. Qed.
Lemma creation_ok bm_read : Forall fits_op creation /\ honest bm_read empty_db None buf_empty creation /\ wf_db empty_db /\ one_per_address (empty_db kPlainState)
  /\ codes_consistent (buf_run buf_empty creation) empty_db.
Proof.
  destruct c_wf as (W1 & W2). split.
  { unfold creation. repeat apply Forall_cons_2; [reflexivity|repeat split; reflexivity|repeat split; reflexivity| | |constructor].
    - split; [reflexivity|]. split; [discriminate|]. intros x E. apply (inj Some) in E. subst x. exact W1.
    - split; [reflexivity|]. split; [discriminate|]. intros x E. apply (inj Some) in E. subst x. exact W2. } split; [repeat split; reflexivity|]. split; [apply empty_wf|]. split; [intros a v w []|].
  assert (EA : forall a x, b_accounts (buf_run buf_empty creation) !! a = Some x -> (a = 3 /\ x = Some c_account) \/ (a = 9 /\ x = Some e_account)).
  { change (b_accounts (buf_run buf_empty creation)) with (<[9 := Some e_account]> (<[3 := Some c_account]> (∅ : gmap N (option account)))). intros a x E. destruct (N.eq_dec a 9) as [ -> |N9]; [rewrite lookup_insert in E; injection E as <-; auto|]. rewrite lookup_insert_ne in E by congruence. destruct (N.eq_dec a 3) as [ -> |N3]; [rewrite lookup_insert in E; injection E as <-; auto|]. rewrite lookup_insert_ne, lookup_empty in E by congruence. discriminate. }
  split.
  - intros a c h E Eh Hi _. exfalso. apply EA in E as [(_ & E)|(_ & E)]; apply (inj Some) in E; subst c.
    + apply (f_equal (hd 0)) in Eh. vm_compute in Eh. discriminate.
    + revert Hi. cbn [a_incarnation e_account]. apply N.lt_irrefl.
  - change (b_prefix_code (buf_run buf_empty creation)) with (<[(3, 1) := c_hash]> (∅ : gmap (N * N) bytes)). intros a i h E. destruct (decide ((3, 1) = (a, i))) as [Ek|Nk]; [|rewrite lookup_insert_ne, lookup_empty in E by exact Nk; discriminate].
    injection Ek as <- <-. exists (Some c_account). reflexivity.
Qed.
Lemma creation_single : let b := buf_run buf_empty creation in b_storage b !! (3, 1, 1) = Some 5 /\ (forall l, l <> 1 -> b_storage b !! (3, 1, l) = None) /\ wf_buffer b.
Proof.
  cbv zeta. split; [reflexivity|]. split.
  - change (b_storage (buf_run buf_empty creation)) with (<[(3, 1, 1) := 5]> (∅ : gmap (N * N * N) N)). intros l Nl. rewrite lookup_insert_ne by congruence. apply lookup_empty.
  - apply (run_wf creation buf_empty buf_empty_wf); [reflexivity|]. apply (creation_ok (fun _ => ∅)).
Qed.

(** *** An account that never existed is recorded when it is written as absent. *)
Lemma absent_recorded : let d := buf_write_to_db (buf_run buf_empty [OBegin 1; OAccount 9 None None]) empty_db in d kPlainAccountChangeSet = [(be_fixed 8 1, be_fixed 20 9)].
Proof. vm_compute. reflexivity. Qed.

(** *** Reads as of a block *)
(** The account changed in block 5: the change set and the index say so, and a read as of block 3 still gives the current account. *)
Definition bm5 : bytes -> bitmap := fun _ => {[5]}.
Definition old_account : account := mkAccount 1 10 kEmptyHash 0.
Definition new_account : account := mkAccount 2 20 kEmptyHash 0.
Definition past_db : database :=
  put (put (put (put (put (put empty_db kPlainState (addr 3) (encode_for_storage new_account false))
    kPlainAccountChangeSet (block_key 5) (addr 3 ++ encode_for_storage old_account false))
    kAccountHistory (account_history_key (addr 3) (2 ^ 64 - 1)) [5])
    kPlainState (storage_prefix (addr 4) 1) (word 1 ++ [20]))
    kPlainStorageChangeSet (storage_change_key 5 (addr 4) 1) (word 1 ++ [10]))
    kStorageHistory (storage_history_key (addr 4) (word 1) (2 ^ 64 - 1)) [5].
Lemma past_wf : wf_db past_db. Proof. repeat apply put_wf. apply empty_wf. Qed.
Lemma past_reads : read_account_changes past_db 5 = Done {[3 := encode_for_storage old_account false]} /\ read_account bm5 past_db 3 (Some 3) = Done (Some new_account)
  /\ read_storage_changes past_db 5 = Done {[(4, 1, 1) := [10]]} /\ read_storage bm5 past_db 4 1 1 (Some 3) = Done 20.
Proof. split; [vm_compute; reflexivity|]. split; [vm_compute; reflexivity|]. split; vm_compute; reflexivity. Qed.
(** With the chunk under block 5 itself. *)
Definition exact_db : database := put past_db kStorageHistory (storage_history_key (addr 4) (word 1) 5) [5].
Definition slot_val (m : N) : N := if m <=? 5 then 10 else 20.
Lemma exact_history : wf_db exact_db /\ slot_history (fun m => m = 5) slot_val /\ history_stored bm5 exact_db 4 1 1 5 (fun m => m = 5) slot_val 20 /\ (forall m, slot_val m < 2 ^ 256).
Proof.
  split; [apply put_wf, past_wf|]. split.
  - intros m Nm. unfold slot_val. destruct (N.leb_spec (m + 1) 5), (N.leb_spec m 5); try reflexivity; lia.
  - split; [|intros m; unfold slot_val; now destruct (m <=? 5)]. constructor.
    + exists [5]. split; [|intros m _; unfold bm5; apply elem_of_singleton]. unfold exact_db, put. rewrite set_table_same. cbn [multi]. apply upsert_in; [apply (wf_single past_db); [apply past_wf|reflexivity]|]. auto.
    + intros m s ->. change (exact_db kPlainStorageChangeSet) with [(storage_change_key 5 (addr 4) 1, word 1 ++ [10])]. change (zeroless_view (be_fixed 32 (slot_val 5))) with [10]. split.
      * intros [E|[]]. apply pair_equal_spec in E as (_ & E). apply app_parts in E as (_ & E); [auto|reflexivity].
      * intros ->. left. reflexivity.
    + vm_compute. reflexivity.
    + intros N. exfalso. apply (N 5); [lia|reflexivity].
Qed.

(** *** Chunks *)
Lemma chunk_case : exists (b : bitmap), b <> ∅ /\ (forall x, x ∈ b -> x < 2 ^ 32) /\ cut_left (fun b => 8 * N.of_nat (base.size b)) b 16 = Done (b ∖ {[9]}, ∅).
Proof.
  exists {[1; 5; 9]}. assert (B : forall x : N, x ∈ ({[1; 5; 9]} : bitmap) <-> x = 1 \/ x = 5 \/ x = 9) by (intros x; rewrite !elem_of_union, !elem_of_singleton; tauto).
  assert (B0 : ({[1; 5; 9]} : bitmap) <> ∅) by (intros E; assert (X : 1 ∈ (∅ : bitmap)) by (rewrite <- E; apply B; auto); now apply not_elem_of_empty in X).
  split; [exact B0|]. split; [intros x Hx; apply B in Hx; lia|]. destruct (cut_left_spec (fun b => 8 * N.of_nat (base.size b)) {[1; 5; 9]} 16 B0 ltac:(intros x Hx; apply B in Hx; lia)) as (mn & mx & I1 & I2 & F & E).
  pose proof (F 1 ltac:(apply B; auto)) as F1. pose proof (F 9 ltac:(apply B; auto)) as F9. apply B in I1, I2. assert (mx = 9) by lia. assert (mn = 1) by lia. subst mx mn. rewrite E. replace (8 * N.of_nat (base.size ({[1; 5; 9]} : bitmap)) <=? 16) with false by (vm_compute; reflexivity). reflexivity.
Qed.

(** *** Final forms *)
Lemma write_out bm_read d ops : Forall fits_op ops -> wf_db d -> one_per_address (d kPlainState) -> codes_consistent (buf_run buf_empty ops) d ->
  let b := buf_run buf_empty ops in
  wf_db (buf_write_to_db b d)
  /\ (forall a, a < 2 ^ 160 -> read_account bm_read (buf_write_to_db b d) a None = buf_read_account bm_read d None b a)
  /\ (forall h, default [] (read_code (buf_write_to_db b d) h) = buf_read_code d b h)
  /\ (forall a, a < 2 ^ 160 -> obind (read_previous_incarnation (buf_write_to_db b d) a None) (fun r => Done (default 0 r)) = buf_previous_incarnation d None b a).
Proof.
  intros F W U C b. destruct (run_wf ops buf_empty buf_empty_wf eq_refl F) as (Wb & _). split; [now apply out_wf|]. split; [intros a Ha; now apply out_accounts|]. split; [intros h; exact (out_codes b d h W)|]. intros a Ha. exact (out_incarnations b d a W Wb Ha).
Qed.
Lemma write_out_storage bm_read d ops a i : Forall fits_op ops -> wf_db d -> a < 2 ^ 160 -> i < 2 ^ 64 ->
  let b := buf_run buf_empty ops in
  ((forall l, b_storage b !! (a, i, l) = None)
   \/ exists l0, is_Some (b_storage b !! (a, i, l0)) /\ (forall l, l <> l0 -> b_storage b !! (a, i, l) = None)
        /\ (forall x y, In (be_fixed 20 a ++ be_fixed 8 i, x) (d kPlainState) -> In (be_fixed 20 a ++ be_fixed 8 i, y) (d kPlainState) -> x = y)
        /\ (forall x, In (be_fixed 20 a ++ be_fixed 8 i, x) (d kPlainState) -> exists s, x = be_fixed 32 l0 ++ s)) ->
  forall l, l < 2 ^ 256 -> read_storage bm_read (buf_write_to_db b d) a i l None = buf_read_storage bm_read d None b a i l.
Proof.
  intros F W Ha Hi b H l Hl. destruct (run_wf ops buf_empty buf_empty_wf eq_refl F) as (Wb & _). destruct H as [N|(l0 & (v & E) & N & U & P)]; [now apply out_storage_untouched|]. exact (out_storage_single bm_read b d a i l0 v l W Wb E N U P Hl).
Qed.
Lemma storage_lost bm_read :
  (Forall fits_op two_slots /\ honest bm_read empty_db None buf_empty two_slots
   /\ buf_read_storage bm_read empty_db None (buf_run buf_empty two_slots) 3 1 1 = Done 5
   /\ read_storage bm_read (buf_write_to_db (buf_run buf_empty two_slots) empty_db) 3 1 1 None = Done 0)
  /\ (wf_db held_db /\ Forall fits_op stale_slots /\ honest bm_read held_db None buf_empty stale_slots
   /\ read_storage bm_read held_db 3 1 1 None = Done 5
   /\ read_storage bm_read (buf_write_to_db (buf_run buf_empty stale_slots) held_db) 3 1 1 None = Done 0
   /\ buf_read_storage bm_read held_db None (buf_run buf_empty stale_slots) 3 1 2 = Done 7
   /\ read_storage bm_read (buf_write_to_db (buf_run buf_empty stale_slots) held_db) 3 1 2 None = Done 6).
Proof.
  destruct two_slots_ok as (A1 & A2). destruct (two_slots_lost bm_read) as (A3 & _ & A4 & _). destruct stale_ok as (B1 & B2 & B3). destruct (stale_read bm_read) as (B4 & _ & B5 & B6).
  split; [split; [exact A1|]; split; [apply A2|]; split; [exact A3|exact A4]|]. split; [exact B1|]. split; [exact B2|]. split; [apply B3|]. split; [exact B4|]. split; [exact B5|]. split; [reflexivity|exact B6].
Qed.
Lemma recorded : (forall i c, wf_account i -> decode_account (before_image (Some i) c) = Ok (match c with Some _ => without_code_hash i | None => i end))
  /\ (forall x, x < 2 ^ 256 -> be_to_N (zeroless_view (be_fixed 32 x)) = x).
Proof. split; [exact before_image_decodes|]. intros x Hx. now apply zeroless_word. Qed.
Lemma block_updates : let st := [OStorage 3 1 1 0 5] in let ac := [OAccount 3 None (Some c_account); OAccount 9 None (Some e_account)] in
  Forall slot_update st /\ Forall account_update ac /\ List.NoDup (updated_slots st) /\ List.NoDup (updated_accounts ac) /\ Forall fits_op (st ++ ac).
Proof.
  cbv zeta. destruct c_wf as (W1 & W2). split; [repeat constructor|]. split; [repeat constructor|]. split; [repeat constructor; intros []|]. split; [repeat constructor; [intros [E|[]]; discriminate|intros []]|].
  apply Forall_cons_2; [repeat split; reflexivity|]. apply Forall_cons_2; [|apply Forall_cons_2; [|constructor]]; (split; [reflexivity|]; split; [discriminate|]; intros x E; apply (inj Some) in E; subst x); [exact W1|exact W2].
Qed.
Lemma cut_small size b limit : b <> ∅ -> (forall x, x ∈ b -> x < 2 ^ 32) -> size b <= limit -> cut_left size b limit = Done (b, ∅).
Proof. intros N B L. destruct (cut_left_spec size b limit N B) as (mn & mx & _ & _ & _ & ->). destruct (N.leb_spec (size b) limit); [reflexivity|lia]. Qed.
Lemma cut_large size (b : bitmap) limit : (forall x, x ∈ b -> x < 2 ^ 32) -> limit < size b -> (exists x y, x ∈ b /\ y ∈ b /\ x <> y) ->
  exists mx, mx ∈ b /\ (forall x, x ∈ b -> x <= mx) /\ cut_left size b limit = Done (b ∖ {[mx]}, ∅).
Proof.
  intros B L (x & y & Hx & Hy & Nxy). assert (N : b <> ∅) by (intros ->; now apply not_elem_of_empty in Hx). destruct (cut_left_spec size b limit N B) as (mn & mx & I1 & I2 & F & E). exists mx. split; [exact I2|]. split; [intros z Hz; now apply F|]. rewrite E.
  destruct (N.leb_spec (size b) limit); [lia|]. destruct (N.eqb_spec mn mx); [|reflexivity]. pose proof (F x Hx). pose proof (F y Hy). lia.
Qed.
