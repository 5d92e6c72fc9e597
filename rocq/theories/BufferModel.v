(** Model of the state reads of db/silkworm/db/access_layer.cpp, of db/silkworm/db/bitmap.cpp and of db::Buffer
    (db/silkworm/db/buffer.{hpp,cpp}).

    As in StateModel, addresses, locations and values are their big-endian values ([N]); code hashes are byte strings.
    The txn_ of the buffer is the database, always present. batch_size_ (only a measure of memory) is left out. *)
From stdpp Require Import gmap sorting.
From Verif Require Import Base RlpModel TypesModel UtilModel DbTable DbModel.

Definition addr (a : N) : bytes := be_fixed 20 a.
Definition word (x : N) : bytes := be_fixed 32 x.

(** ** Bitmaps (CRoaring is not in the repository: a bitmap is the set of its elements, and its size in bytes and its
    serialisation are parameters). *)
Definition bitmap : Type := gset N.
Definition bm_minimum (b : bitmap) : option N := hd_error (merge_sort N.le (elements b)).
Definition bm_maximum (b : bitmap) : option N := list.last (merge_sort N.le (elements b)).
(** bitmap.cpp:27-33: the first element that is not below n *)
Definition seek (b : bitmap) (n : N) : option N := hd_error (base.filter (fun x => (n ≤ x)%N) (merge_sort N.le (elements b))).

(** bitmap.cpp:35-69 and 71-101. roaring_bitmap_from_range builds 32-bit bitmaps: the upper end is cut to 2^32, and the result is
    a null pointer, of which a bitmap cannot be made, when the range is empty. The search for the cutting point starts with
    i = max - min and j = 0 and runs while i < j. *)
Section Cut.
  Variable size_in_bytes : bitmap -> N.
  Definition from_range (lo hi : N) : out (N -> bool) :=
    let hi := N.min hi (2 ^ 32) in if hi <=? lo then Undefined else Done (fun x => (lo <=? x) && (x <? hi)).
  Fixpoint cut_search (fuel : nat) (b : bitmap) (from limit i j : N) : out N :=
    if i <? j then
      match fuel with
      | O => Undefined
      | S fuel =>
        let h := (i + j) / 2 in
        do r := from_range from (from + i + 1) in
        if size_in_bytes (base.filter (fun x => r x = true) b) <=? limit then cut_search fuel b from limit (h + 1) j else cut_search fuel b from limit i h
      end
    else Done i.
  Definition cut_left (b : bitmap) (limit : N) : out (bitmap * bitmap) :=
    match bm_minimum b, bm_maximum b with
    | Some mn, Some mx =>
      if size_in_bytes b <=? limit then
        do r := from_range mn (mx + 1) in Done (base.filter (fun x => r x = true) b, ∅)
      else
        do i := cut_search 64 b mn limit (mx - mn) 0 in
        do r := from_range mn (mn + i) in
        Done (base.filter (fun x => r x = true) b, base.filter (fun x => ¬ (mn ≤ x ∧ x ≤ mn + i)%N) b)
    | _, _ => Undefined                      (* the minimum of an empty bitmap is the largest integer *)
    end.
End Cut.

(** ** Reading the state *)
Section Read.
  Variable bm_read : bytes -> bitmap.        (* bitmap.cpp:23-25 *)

  (** access_layer.cpp:297-321; the history is looked for in the table of codes, by exact key. *)
  Definition historical_account (d : database) (a n : N) : option bytes :=
    match find (d kCode) (account_history_key (addr a) n) with
    | [] => None
    | e :: _ =>
      if negb (starts_with (fst e) (addr a)) then None
      else match seek (bm_read (snd e)) n with
           | None => None
           | Some cb => match find_multivalue (d kPlainAccountChangeSet) (block_key cb) (addr a) with [] => None | e :: _ => Some (snd e) end
           end
    end.
  (** access_layer.cpp:324-348; cursor::seek is MDBX_SET: the key has to be there exactly. *)
  Definition historical_storage (d : database) (a inc loc n : N) : option bytes :=
    match find (d kStorageHistory) (storage_history_key (addr a) (word loc) n) with
    | [] => None
    | e :: _ =>
      if negb (bytes_eqb (firstn 20 (fst e)) (addr a)) || negb (bytes_eqb (firstn 32 (skipn 20 (fst e))) (word loc)) then None
      else match seek (bm_read (snd e)) n with
           | None => None
           | Some cb => find_value_suffix (d kPlainStorageChangeSet) (storage_change_key cb (addr a) inc) (word loc)
           end
    end.
  (** access_layer.cpp:350-378 *)
  Definition read_account (d : database) (a : N) (block : option N) : out (option account) :=
    let encoded := match block with Some n => historical_account d a n | None => None end in
    let encoded := match encoded with Some e => Some e | None => lookup (d kPlainState) (addr a) end in
    match encoded with
    | None | Some [] => Done None
    | Some e =>
      do acc := err_handler (decode_account e) in
      if (0 <? a_incarnation acc) && bytes_eqb (a_code_hash acc) kEmptyHash then
        match lookup (d kPlainContractCode) (storage_prefix (addr a) (a_incarnation acc)) with
        | Some h => if Nat.eqb (length h) 32 then Done (Some (mkAccount (a_nonce acc) (a_balance acc) h (a_incarnation acc))) else Done (Some acc)
        | None => Done (Some acc)
        end
      else Done (Some acc)
    end.
  (** access_layer.cpp:380-399; a value longer than 32 bytes is only asserted away. *)
  Definition read_storage (d : database) (a inc loc : N) (block : option N) : out N :=
    let val := match block with Some n => historical_storage d a inc loc n | None => None end in
    let val := match val with Some v => Some v | None => find_value_suffix (d kPlainState) (storage_prefix (addr a) inc) (word loc) end in
    match val with
    | None => Done 0
    | Some v => if (32 <? length v)%nat then Undefined else Done (be_to_N v)
    end.
  (** access_layer.cpp:401-418 *)
  Definition read_previous_incarnation (d : database) (a : N) (block : option N) : out (option N) :=
    match block with
    | Some _ => Done None
    | None =>
      match lookup (d kIncarnationMap) (addr a) with
      | None => Done None
      | Some v => if (length v <? 8)%nat then Undefined else Done (Some (be_to_N (firstn 8 v)))
      end
    end.
  (** access_layer.cpp:420-437 *)
  Fixpoint collect_account_changes (p : table) (key : bytes) (acc : gmap N bytes) : out (gmap N bytes) :=
    match p with
    | e :: r =>
      if bytes_eqb (fst e) key then
        if (length (snd e) <? 20)%nat then Undefined
        else collect_account_changes r key (<[be_to_N (firstn 20 (snd e)) := skipn 20 (snd e)]> acc)
      else Done acc
    | [] => Done acc
    end.
  Definition read_account_changes (d : database) (n : N) : out (gmap N bytes) :=
    collect_account_changes (find (d kPlainAccountChangeSet) (block_key n)) (block_key n) ∅.
  (** access_layer.cpp:439-471; the nested maps are one map from triples. *)
  Fixpoint collect_storage_changes (p : table) (prefix : bytes) (acc : gmap (N * N * N) bytes) : out (gmap (N * N * N) bytes) :=
    match p with
    | e :: r =>
      if starts_with (fst e) prefix then
        let k := skipn (length prefix) (fst e) in
        if (length k <? 28)%nat || (length (snd e) <? 32)%nat then Undefined
        else collect_storage_changes r prefix
               (<[(be_to_N (firstn 20 k), be_to_N (firstn 8 (skipn 20 k)), be_to_N (firstn 32 (snd e))) := skipn 32 (snd e)]> acc)
      else Done acc
    | [] => Done acc
    end.
  Definition read_storage_changes (d : database) (n : N) : out (gmap (N * N * N) bytes) :=
    collect_storage_changes (lower_bound (d kPlainStorageChangeSet) (block_key n)) (block_key n) ∅.

  (** ** db::Buffer *)
  (** buffer.hpp:117-145. Nested maps are maps from tuples (their inner maps are never empty). *)
  Record buffer := mkBuf {
    b_accounts : gmap N (option account);
    b_storage : gmap (N * N * N) N;
    b_acc_changes : gmap N (gmap N bytes);
    b_st_changes : gmap N (gmap (N * N * N) bytes);
    b_incarnations : gmap N N;
    b_code : gmap bytes bytes;
    b_prefix_code : gmap (N * N) bytes;
    b_receipts : gmap N bytes;
    b_logs : gmap (N * N) bytes;
    b_block : N;
    b_changed : gset N
  }.
  Definition buf_empty : buffer := mkBuf ∅ ∅ ∅ ∅ ∅ ∅ ∅ ∅ ∅ 0 ∅.

  (** buffer.cpp:39-42 *)
  Definition begin_block (b : buffer) (n : N) : buffer :=
    mkBuf (b_accounts b) (b_storage b) (b_acc_changes b) (b_st_changes b) (b_incarnations b) (b_code b) (b_prefix_code b) (b_receipts b) (b_logs b) n ∅.
  (** types/account.hpp: operator== *)
  Definition account_eqb (x y : account) : bool :=
    (a_nonce x =? a_nonce y) && (a_balance x =? a_balance y) && bytes_eqb (a_code_hash x) (a_code_hash y) && (a_incarnation x =? a_incarnation y).
  Definition opt_account_eqb (x y : option account) : bool :=
    match x, y with Some x, Some y => account_eqb x y | None, None => true | _, _ => false end.
  (** buffer.cpp:44-77 *)
  Definition update_account (b : buffer) (a : N) (initial current : option account) : buffer :=
    let equal := opt_account_eqb current initial in
    let deleted := match current with None => true | _ => false end in
    if equal && negb deleted && negb (bool_decide (a ∈ b_changed b)) then b
    else
      let encoded := match initial with Some i => encode_for_storage i (negb deleted) | None => [] end in
      let changes := <[b_block b := <[a := encoded]> (default ∅ (b_acc_changes b !! b_block b))]> (b_acc_changes b) in
      if equal then mkBuf (b_accounts b) (b_storage b) changes (b_st_changes b) (b_incarnations b) (b_code b) (b_prefix_code b) (b_receipts b) (b_logs b) (b_block b) (b_changed b)
      else
        let incs := match initial with Some i => if deleted && (0 <? a_incarnation i) then <[a := a_incarnation i]> (b_incarnations b) else b_incarnations b | None => b_incarnations b end in
        mkBuf (<[a := current]> (b_accounts b)) (b_storage b) changes (b_st_changes b) incs (b_code b) (b_prefix_code b) (b_receipts b) (b_logs b) (b_block b) (b_changed b).
  (** buffer.cpp:79-88 *)
  Definition update_account_code (b : buffer) (a inc : N) (h code : bytes) : buffer :=
    mkBuf (b_accounts b) (b_storage b) (b_acc_changes b) (b_st_changes b) (b_incarnations b) (<[h := code]> (b_code b)) (<[(a, inc) := h]> (b_prefix_code b)) (b_receipts b) (b_logs b) (b_block b) (b_changed b).
  (** buffer.cpp:90-104 *)
  Definition update_storage (b : buffer) (a inc loc initial current : N) : buffer :=
    if current =? initial then b
    else
      let changes := <[b_block b := <[(a, inc, loc) := zeroless_view (word initial)]> (default ∅ (b_st_changes b !! b_block b))]> (b_st_changes b) in
      mkBuf (b_accounts b) (<[(a, inc, loc) := current]> (b_storage b)) (b_acc_changes b) changes (b_incarnations b) (b_code b) (b_prefix_code b) (b_receipts b) (b_logs b) (b_block b) ({[a]} ∪ b_changed b).

  (** buffer.cpp:362-370 *)
  Definition buf_read_account (d : database) (hist : option N) (b : buffer) (a : N) : out (option account) :=
    match b_accounts b !! a with Some x => Done x | None => read_account d a hist end.
  (** buffer.cpp:372-385 *)
  Definition buf_read_code (d : database) (b : buffer) (h : bytes) : bytes :=
    match b_code b !! h with Some c => c | None => default [] (read_code d h) end.
  (** buffer.cpp:387-401 *)
  Definition buf_read_storage (d : database) (hist : option N) (b : buffer) (a inc loc : N) : out N :=
    match b_storage b !! (a, inc, loc) with Some v => Done v | None => read_storage d a inc loc hist end.
  (** buffer.cpp:403-412 *)
  Definition buf_previous_incarnation (d : database) (hist : option N) (b : buffer) (a : N) : out N :=
    match b_incarnations b !! a with Some i => Done i | None => do r := read_previous_incarnation d a hist in Done (default 0 r) end.

  (** *** Writing out *)
  Definition table_put (d : database) (t : tbl) (x : table) : database := set_table d t x.
  (** buffer.cpp:139-150; find_multivalue finds the first record of the key, whatever its value, and that record is erased. *)
  Definition upsert_storage_value (t : table) (prefix : bytes) (loc v : N) : table :=
    let t := match find_multivalue t prefix (word loc) with e :: _ => erase_at t e | [] => t end in
    if v =? 0 then t else put_dup t prefix (word loc ++ zeroless_view (word v)).
  (** buffer.cpp:165-196 for one address: the account, then its contracts by incarnation and location. *)
  Definition write_account (b : buffer) (t : table) (a : N) : table :=
    match b_accounts b !! a with
    | None => t
    | Some acc =>
      let t := match find t (addr a) with e :: _ => erase_at t e | [] => t end in
      match acc with Some x => put_dup t (addr a) (encode_for_storage x false) | None => t end
    end.
  Definition triple_le (x y : N * N * N) : Prop :=
    (x.1.1 < y.1.1 ∨ (x.1.1 = y.1.1 ∧ (x.1.2 < y.1.2 ∨ (x.1.2 = y.1.2 ∧ x.2 ≤ y.2))))%N.
  #[global] Instance triple_le_dec : RelDecision triple_le.
  Proof. intros x y. unfold triple_le. apply _. Defined.
  (** The slots of an address, by incarnation and location. *)
  Definition slots_of (b : buffer) (a : N) : list (N * N * N) :=
    base.filter (fun k => k.1.1 = a) (merge_sort triple_le (elements (dom (b_storage b)))).
  Definition write_slot (b : buffer) (t : table) (k : N * N * N) : table :=
    match b_storage b !! k with
    | Some v => upsert_storage_value t (storage_prefix (addr k.1.1) k.1.2) k.2 v
    | None => t
    end.
  Definition write_address (b : buffer) (t : table) (a : N) : table := fold_left (write_slot b) (slots_of b a) (write_account b t a).
  (** buffer.cpp:152-163, 197-198 *)
  Definition addresses_of (b : buffer) : list N :=
    merge_sort N.le (elements (dom (b_accounts b) ∪ set_map (fun k : N * N * N => k.1.1) (dom (b_storage b)))).
  Definition write_to_state_table (b : buffer) (t : table) : table := fold_left (write_address b) (addresses_of b) t.
  (** buffer.cpp:200-259. The maps are visited in the order of their keys; that order does not show in the tables, which are
      ordered themselves. *)
  Definition write_map {K} `{Countable K} {V} (key : K -> bytes) (val : V -> bytes) (m : gmap K V) (t : table) : table :=
    fold_left (fun t kv => upsert t (key kv.1) (val kv.2)) (map_to_list m) t.
  Definition write_acc_changes (b : buffer) (t : table) : table :=
    fold_left (fun t be => fold_left (fun t ae => put_dup t (block_key be.1) (addr ae.1 ++ ae.2)) (map_to_list be.2) t) (map_to_list (b_acc_changes b)) t.
  Definition write_st_changes (b : buffer) (t : table) : table :=
    fold_left (fun t be => fold_left (fun (t : table) (se : (N * N * N) * bytes) => put_dup t (storage_change_key be.1 (addr se.1.1.1) se.1.1.2) (word se.1.2 ++ se.2)) (map_to_list be.2) t) (map_to_list (b_st_changes b)) t.
  Definition buf_write_to_db (b : buffer) (d : database) : database :=
    let d := set_table d kPlainState (write_to_state_table b (d kPlainState)) in
    let d := set_table d kIncarnationMap (write_map addr (be_fixed 8) (b_incarnations b) (d kIncarnationMap)) in
    let d := set_table d kCode (write_map (fun h => h) (fun c => c) (b_code b) (d kCode)) in
    let d := set_table d kPlainContractCode (write_map (fun p => storage_prefix (addr p.1) p.2) (fun h => h) (b_prefix_code b) (d kPlainContractCode)) in
    let d := set_table d kPlainAccountChangeSet (write_acc_changes b (d kPlainAccountChangeSet)) in
    let d := set_table d kPlainStorageChangeSet (write_st_changes b (d kPlainStorageChangeSet)) in
    let d := set_table d kBlockReceipts (write_map block_key (fun v => v) (b_receipts b) (d kBlockReceipts)) in
    set_table d kLogs (write_map (fun p => log_key p.1 p.2) (fun v => v) (b_logs b) (d kLogs)).
End Read.
