(** Specification of db::Buffer and of the reads of the state. *)
From stdpp Require Import gmap.
From Verif Require Import Base RlpModel TypesModel TypesSpec UtilModel DbTable DbModel DbSpec BufferModel.

(** ** Histories of a buffer *)
Inductive buf_op :=
| OBegin (n : N)
| OAccount (a : N) (initial current : option account)
| OCode (a inc : N) (h code : bytes)
| OStorage (a inc loc initial current : N).
Definition buf_step (b : buffer) (o : buf_op) : buffer :=
  match o with
  | OBegin n => begin_block b n
  | OAccount a i c => update_account b a i c
  | OCode a inc h code => update_account_code b a inc h code
  | OStorage a inc loc i c => update_storage b a inc loc i c
  end.
Definition buf_run (b : buffer) (ops : list buf_op) : buffer := fold_left buf_step ops b.

Section Spec.
  Variable bm_read : bytes -> bitmap.
  Variable d : database.
  Variable hist : option N.
  (** The caller passes as initial values what the buffer reads (IntraBlockState does: C27). *)
  Definition honest_op (b : buffer) (o : buf_op) : Prop :=
    match o with
    | OAccount a i _ => buf_read_account bm_read d hist b a = Done i
    | OStorage a inc loc i _ => buf_read_storage bm_read d hist b a inc loc = Done i
    | _ => True
    end.
  Fixpoint honest (b : buffer) (ops : list buf_op) : Prop :=
    match ops with [] => True | o :: r => honest_op b o /\ honest (buf_step b o) r end.
End Spec.

(** What was last written, in a history read from the oldest to the newest; [before]: what the database says. *)
Fixpoint last_account (ops : list buf_op) (a : N) (before : out (option account)) : out (option account) :=
  match ops with
  | [] => before
  | OAccount x _ c :: r => last_account r a (if x =? a then Done c else before)
  | _ :: r => last_account r a before
  end.
Fixpoint last_storage (ops : list buf_op) (a inc loc : N) (before : out N) : out N :=
  match ops with
  | [] => before
  | OStorage x i l _ c :: r => last_storage r a inc loc (if (x =? a) && (i =? inc) && (l =? loc) then Done c else before)
  | _ :: r => last_storage r a inc loc before
  end.
Fixpoint last_code (ops : list buf_op) (h : bytes) (before : bytes) : bytes :=
  match ops with
  | [] => before
  | OCode _ _ x c :: r => last_code r h (if bytes_eqb x h then c else before)
  | _ :: r => last_code r h before
  end.
(** The incarnation of the contract last destroyed at the address. *)
Fixpoint last_destroyed (ops : list buf_op) (a : N) (before : out N) : out N :=
  match ops with
  | [] => before
  | OAccount x (Some i) None :: r => last_destroyed r a (if (x =? a) && negb (a_incarnation i =? 0) then Done (a_incarnation i) else before)
  | _ :: r => last_destroyed r a before
  end.

(** ** Tables *)
(** Field widths of what is buffered. *)
Record wf_buffer (b : buffer) : Prop := {
  wb_accounts : forall a x, b_accounts b !! a = Some x -> a < 2 ^ 160 /\ match x with Some c => wf_account c | None => True end;
  wb_storage : forall a i l v, b_storage b !! (a, i, l) = Some v -> a < 2 ^ 160 /\ i < 2 ^ 64 /\ l < 2 ^ 256 /\ v < 2 ^ 256;
  wb_inc : forall a i, b_incarnations b !! a = Some i -> a < 2 ^ 160 /\ i < 2 ^ 64;
  wb_prefix : forall a i h, b_prefix_code b !! (a, i) = Some h -> a < 2 ^ 160 /\ i < 2 ^ 64;
  wb_acc_changes : forall n m, b_acc_changes b !! n = Some m -> n < 2 ^ 64 /\ (forall a v, m !! a = Some v -> a < 2 ^ 160);
  wb_st_changes : forall n m, b_st_changes b !! n = Some m -> n < 2 ^ 64 /\ (forall a i l v, m !! (a, i, l) = Some v -> a < 2 ^ 160 /\ i < 2 ^ 64 /\ l < 2 ^ 256)
}.
(** The state table holds at most one record per address. *)
Definition one_per_address (t : table) : Prop := forall a v w, In (be_fixed 20 a, v) t -> In (be_fixed 20 a, w) t -> v = w.
(** A contract without code in the buffer has none in the table of code hashes, and code hashes are buffered with their accounts. *)
Definition codes_consistent (b : buffer) (d : database) : Prop :=
  (forall a c h, b_accounts b !! a = Some (Some c) -> a_code_hash c = kEmptyHash -> 0 < a_incarnation c ->
      lookup (buf_write_to_db b d kPlainContractCode) (be_fixed 20 a ++ be_fixed 8 (a_incarnation c)) = Some h -> h = kEmptyHash)
  /\ (forall a i h, b_prefix_code b !! (a, i) = Some h -> is_Some (b_accounts b !! a)).

(** Field widths of what is passed to the buffer. *)
Definition fits_op (o : buf_op) : Prop :=
  match o with
  | OBegin n => n < 2 ^ 64
  | OAccount a i c => a < 2 ^ 160 /\ (forall x, i = Some x -> wf_account x) /\ (forall x, c = Some x -> wf_account x)
  | OCode a inc h _ => a < 2 ^ 160 /\ inc < 2 ^ 64
  | OStorage a inc loc i c => a < 2 ^ 160 /\ inc < 2 ^ 64 /\ loc < 2 ^ 256 /\ i < 2 ^ 256 /\ c < 2 ^ 256
  end.

(** ** Change sets of one block *)
(** The block's updates: first slots, then accounts (and codes anywhere), each slot and each account at most once. *)
Definition slot_update (o : buf_op) : Prop := match o with OStorage _ _ _ _ _ => True | OCode _ _ _ _ => True | _ => False end.
Definition account_update (o : buf_op) : Prop := match o with OAccount _ _ _ => True | OCode _ _ _ _ => True | _ => False end.
Definition updated_slots (ops : list buf_op) : list (N * N * N) := omap (fun o => match o with OStorage a i l _ _ => Some (a, i, l) | _ => None end) ops.
Definition updated_accounts (ops : list buf_op) : list N := omap (fun o => match o with OAccount a _ _ => Some a | _ => None end) ops.
(** What is recorded for an account: its earlier encoding, without the code hash unless the account is being deleted; nothing when
    it did not exist. *)
Definition before_image (initial current : option account) : bytes :=
  match initial with
  | None => []
  | Some i => encode_for_storage i (match current with Some _ => true | None => false end)
  end.

(** ** Histories of a slot *)
(** [val m]: the value right before block m; [changed m]: block m changes it. *)
Definition slot_history (changed : N -> Prop) (val : N -> N) : Prop := forall m, ~ changed m -> val (m + 1) = val m.
(** The indexes and change sets of a slot that a read as of block n relies on: a chunk of the index under n itself, holding of the
    blocks from n on exactly the changing ones, and with every change the value before it; the state table holds the last value. *)
Record history_stored (bm_read : bytes -> bitmap) (d : database) (a inc loc n : N) (changed : N -> Prop) (val : N -> N) (last : N) : Prop := {
  hs_chunk : exists chunk, In (storage_history_key (be_fixed 20 a) (be_fixed 32 loc) n, chunk) (d kStorageHistory) /\ (forall m, n <= m -> m ∈ bm_read chunk <-> changed m);
  hs_changes : forall m s, changed m -> (In (storage_change_key m (be_fixed 20 a) inc, be_fixed 32 loc ++ s) (d kPlainStorageChangeSet) <-> s = zeroless_view (be_fixed 32 (val m)));
  hs_last : read_storage bm_read d a inc loc None = Done last;
  hs_end : (forall m, n <= m -> ~ changed m) -> val n = last
}.
