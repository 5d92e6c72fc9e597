(** The properties C46 to C49: the write buffer, its change sets, reads as of a block, and bitmap chunks. *)
From stdpp Require Import gmap.
From Verif Require Import Base RlpModel TypesModel TypesSpec UtilModel DbTable DbModel DbSpec DbCases BufferModel BufferSpec BufferProofs BufferProofs2 BufferProofs3 BufferProofs4 BufferProofs5 BufferProofs6 BufferProofs7 BufferCases.

(** *** C46: the buffer is transparent. *)
(** Over every history of updates whose initial values are what the buffer reads, reads give the last value written, or else what
    the database says. *)
Theorem C46_reads : forall bm_read d hist ops, honest bm_read d hist buf_empty ops ->
  (forall a, buf_read_account bm_read d hist (buf_run buf_empty ops) a = last_account ops a (read_account bm_read d a hist))
  /\ (forall a i l, buf_read_storage bm_read d hist (buf_run buf_empty ops) a i l = last_storage ops a i l (read_storage bm_read d a i l hist))
  /\ (forall h, buf_read_code d (buf_run buf_empty ops) h = last_code ops h (default [] (read_code d h)))
  /\ (forall a, buf_previous_incarnation d hist (buf_run buf_empty ops) a
        = last_destroyed ops a (obind (read_previous_incarnation d a hist) (fun r => Done (default 0 r)))).
Proof. exact (fun bm_read d hist ops H => reads_history bm_read d hist ops buf_empty H). Qed.
Print Assumptions C46_reads.
(** After the write-out the database alone gives the same accounts, codes and earlier incarnations. *)
Theorem C46_write_out : forall bm_read d ops, Forall fits_op ops -> wf_db d -> one_per_address (d kPlainState) -> codes_consistent (buf_run buf_empty ops) d ->
  let b := buf_run buf_empty ops in
  wf_db (buf_write_to_db b d)
  /\ (forall a, a < 2 ^ 160 -> read_account bm_read (buf_write_to_db b d) a None = buf_read_account bm_read d None b a)
  /\ (forall h, default [] (read_code (buf_write_to_db b d) h) = buf_read_code d b h)
  /\ (forall a, a < 2 ^ 160 -> obind (read_previous_incarnation (buf_write_to_db b d) a None) (fun r => Done (default 0 r)) = buf_previous_incarnation d None b a).
Proof. exact write_out. Qed.
Print Assumptions C46_write_out.
(** Storage: what is missing is a contract of which several slots are in play. *)
Theorem C46_storage_partial : forall bm_read d ops a i, Forall fits_op ops -> wf_db d -> a < 2 ^ 160 -> i < 2 ^ 64 ->
  let b := buf_run buf_empty ops in
  ((forall l, b_storage b !! (a, i, l) = None)
   \/ exists l0, is_Some (b_storage b !! (a, i, l0)) /\ (forall l, l <> l0 -> b_storage b !! (a, i, l) = None)
        /\ (forall x y, In (be_fixed 20 a ++ be_fixed 8 i, x) (d kPlainState) -> In (be_fixed 20 a ++ be_fixed 8 i, y) (d kPlainState) -> x = y)
        /\ (forall x, In (be_fixed 20 a ++ be_fixed 8 i, x) (d kPlainState) -> exists s, x = be_fixed 32 l0 ++ s)) ->
  forall l, l < 2 ^ 256 -> read_storage bm_read (buf_write_to_db b d) a i l None = buf_read_storage bm_read d None b a i l.
Proof. exact write_out_storage. Qed.
Print Assumptions C46_storage_partial.
(** Two new slots of a contract: one is lost. One changed slot of two: the other one is lost and the changed one is not changed. *)
Theorem C46_storage_refuted : forall bm_read,
  (Forall fits_op two_slots /\ honest bm_read empty_db None buf_empty two_slots
   /\ buf_read_storage bm_read empty_db None (buf_run buf_empty two_slots) 3 1 1 = Done 5
   /\ read_storage bm_read (buf_write_to_db (buf_run buf_empty two_slots) empty_db) 3 1 1 None = Done 0)
  /\ (wf_db held_db /\ Forall fits_op stale_slots /\ honest bm_read held_db None buf_empty stale_slots
   /\ read_storage bm_read held_db 3 1 1 None = Done 5
   /\ read_storage bm_read (buf_write_to_db (buf_run buf_empty stale_slots) held_db) 3 1 1 None = Done 0
   /\ buf_read_storage bm_read held_db None (buf_run buf_empty stale_slots) 3 1 2 = Done 7
   /\ read_storage bm_read (buf_write_to_db (buf_run buf_empty stale_slots) held_db) 3 1 2 None = Done 6).
Proof. exact storage_lost. Qed.
Print Assumptions C46_storage_refuted.
Example C46_witness : forall bm_read, Forall fits_op creation /\ honest bm_read empty_db None buf_empty creation /\ wf_db empty_db /\ one_per_address (empty_db kPlainState)
  /\ codes_consistent (buf_run buf_empty creation) empty_db.
Proof. exact creation_ok. Qed.
Example C46_witness_slot : let b := buf_run buf_empty creation in b_storage b !! (3, 1, 1) = Some 5 /\ (forall l, l <> 1 -> b_storage b !! (3, 1, l) = None) /\ wf_buffer b.
Proof. exact creation_single. Qed.

(** *** C47: change sets. *)
(** Blocks are written once each, slots before accounts, each slot and each account once per block. After the write-out the change
    set of block n has for every slot that block n changes the value before, and an entry for an account if and only if the account
    was updated and changed, was deleted or written as absent, or one of its slots changed. *)
Theorem C47_change_sets : forall pre n st ac d,
  Forall fits_op pre -> (forall m, In (OBegin m) pre -> m <> n) -> (pre = [] \/ exists m r, pre = OBegin m :: r) ->
  n < 2 ^ 64 -> Forall fits_op st -> Forall fits_op ac -> Forall slot_update st -> Forall account_update ac -> List.NoDup (updated_slots st) -> List.NoDup (updated_accounts ac) ->
  wf_db d -> (forall v, ~ In (be_fixed 8 n, v) (d kPlainAccountChangeSet)) -> (forall k v, ~ In (be_fixed 8 n ++ k, v) (d kPlainStorageChangeSet)) ->
  exists am sm,
    read_account_changes (buf_write_to_db (buf_run buf_empty (pre ++ OBegin n :: st ++ ac)) d) n = Done am
    /\ read_storage_changes (buf_write_to_db (buf_run buf_empty (pre ++ OBegin n :: st ++ ac)) d) n = Done sm
    /\ (forall a v, am !! a = Some v <-> exists i c, In (OAccount a i c) ac /\ (i <> c \/ c = None \/ exists j l x y, In (OStorage a j l x y) st /\ x <> y) /\ v = before_image i c)
    /\ (forall a j l v, sm !! (a, j, l) = Some v <-> exists x y, In (OStorage a j l x y) st /\ x <> y /\ v = zeroless_view (be_fixed 32 x)).
Proof. exact change_sets. Qed.
Print Assumptions C47_change_sets.
(** The values passed are those before and after the block. *)
Theorem C47_before_after : forall bm_read d hist b ops, honest bm_read d hist b ops ->
  (List.NoDup (updated_accounts ops) -> forall a i c, In (OAccount a i c) ops -> buf_read_account bm_read d hist b a = Done i /\ buf_read_account bm_read d hist (buf_run b ops) a = Done c)
  /\ (List.NoDup (updated_slots ops) -> forall a j l x y, In (OStorage a j l x y) ops -> buf_read_storage bm_read d hist b a j l = Done x /\ buf_read_storage bm_read d hist (buf_run b ops) a j l = Done y).
Proof. exact before_after. Qed.
Print Assumptions C47_before_after.
(** And they can be had back from what is recorded. *)
Theorem C47_recorded : (forall i c, wf_account i -> decode_account (before_image (Some i) c) = Ok (match c with Some _ => without_code_hash i | None => i end))
  /\ (forall x, x < 2 ^ 256 -> be_to_N (zeroless_view (be_fixed 32 x)) = x).
Proof. exact recorded. Qed.
Print Assumptions C47_recorded.
(** "For nothing else" fails for an account that was absent before and after. *)
Theorem C47_absent_refuted : buf_write_to_db (buf_run buf_empty [OBegin 1; OAccount 9 None None]) empty_db kPlainAccountChangeSet = [(be_fixed 8 1, be_fixed 20 9)].
Proof. exact absent_recorded. Qed.
Print Assumptions C47_absent_refuted.
Example C47_witness : let st := [OStorage 3 1 1 0 5] in let ac := [OAccount 3 None (Some c_account); OAccount 9 None (Some e_account)] in
  Forall slot_update st /\ Forall account_update ac /\ List.NoDup (updated_slots st) /\ List.NoDup (updated_accounts ac) /\ Forall fits_op (st ++ ac).
Proof. exact block_updates. Qed.

(** *** C48: reads as of a block. *)
(** Accounts: whatever the history, the current account is read (the code table, whose keys are 32-byte hashes, is searched for
    an exact 28-byte key). *)
Theorem C48_account_current : forall bm_read d a n, wf_db d -> (forall k v, In (k, v) (d kCode) -> List.length k = 32%nat) ->
  read_account bm_read d a (Some n) = read_account bm_read d a None.
Proof. exact historical_reads_current. Qed.
Print Assumptions C48_account_current.
(** Storage: when the index has a chunk under exactly n, the value before n is read; otherwise the current one. *)
Theorem C48_storage_partial : forall bm_read d a inc loc n changed val last, wf_db d -> (forall m, val m < 2 ^ 256) -> slot_history changed val ->
  history_stored bm_read d a inc loc n changed val last -> read_storage bm_read d a inc loc (Some n) = Done (val n).
Proof. exact historical_storage_stored. Qed.
Print Assumptions C48_storage_partial.
Theorem C48_storage_missed : forall bm_read d a inc loc n, wf_db d -> (forall chunk, ~ In (be_fixed 20 a ++ be_fixed 32 loc ++ be_fixed 8 n, chunk) (d kStorageHistory)) ->
  read_storage bm_read d a inc loc (Some n) = read_storage bm_read d a inc loc None.
Proof. exact historical_storage_missed. Qed.
Print Assumptions C48_storage_missed.
(** Account 3 and a slot of account 4 changed in block 5, and are indexed under the open chunk; as of block 3 their new values are read. *)
Theorem C48_refuted : wf_db past_db /\ read_account_changes past_db 5 = Done {[3 := encode_for_storage old_account false]} /\ read_account bm5 past_db 3 (Some 3) = Done (Some new_account)
  /\ read_storage_changes past_db 5 = Done {[(4, 1, 1) := [10]]} /\ read_storage bm5 past_db 4 1 1 (Some 3) = Done 20.
Proof. exact (conj past_wf past_reads). Qed.
Print Assumptions C48_refuted.
Example C48_witness : wf_db exact_db /\ slot_history (fun m => m = 5) slot_val /\ history_stored bm5 exact_db 4 1 1 5 (fun m => m = 5) slot_val 20 /\ (forall m, slot_val m < 2 ^ 256).
Proof. exact exact_history. Qed.

(** *** C49: chunks of bitmaps. *)
Theorem C49_partial : forall size b limit, b <> ∅ -> (forall x, x ∈ b -> x < 2 ^ 32) -> size b <= limit -> cut_left size b limit = Done (b, ∅).
Proof. exact cut_small. Qed.
Print Assumptions C49_partial.
(** A bitmap over the limit is never split: everything but its largest element becomes one chunk, and the largest is dropped. *)
Theorem C49_refuted : forall size b limit, (forall x, x ∈ b -> x < 2 ^ 32) -> limit < size b -> (exists x y, x ∈ b /\ y ∈ b /\ x <> y) ->
  exists mx, mx ∈ b /\ (forall x, x ∈ b -> x <= mx) /\ cut_left size b limit = Done (b ∖ {[mx]}, ∅).
Proof. exact cut_large. Qed.
Print Assumptions C49_refuted.
Theorem C49_seek : forall (b : bitmap) n,
  (forall x, seek b n = Some x <-> x ∈ b /\ n <= x /\ (forall y, y ∈ b -> n <= y -> x <= y)) /\ (seek b n = None <-> forall y, y ∈ b -> ~ n <= y).
Proof. exact seek_spec. Qed.
Print Assumptions C49_seek.
Example C49_witness : exists (b : bitmap), b <> ∅ /\ (forall x, x ∈ b -> x < 2 ^ 32) /\ cut_left (fun b => 8 * N.of_nat (base.size b)) b 16 = Done (b ∖ {[9]}, ∅).
Proof. exact chunk_case. Qed.
