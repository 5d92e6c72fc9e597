(** Model of core/silkworm/state/{object.hpp, delta.*, intra_block_state.*}.

    evmc::address and evmc::bytes32 locations and values are represented by their big-endian value ([N]);
    code hashes stay byte strings. Hash maps and sets are finite maps and sets. *)
From stdpp Require Import gmap.
From Verif Require Import Base RlpModel TypesModel.

(** ** What IntraBlockState reads from its StateBuffer (state/buffer.hpp:40-48). *)
Record db_reader := mkDb {
  read_account : N -> option account;
  read_code : bytes -> bytes;
  read_storage : N -> N -> N -> N;
  previous_incarnation : N -> N
}.

(** state/object.hpp:28-41 *)
Record object := mkObj { o_initial : option account; o_current : option account }.
Record committed_value := mkCv { cv_initial : N; cv_original : N }.
Record storage := mkSt { st_committed : gmap N committed_value; st_current : gmap N N }.
Definition storage_empty : storage := mkSt ∅ ∅.

(** state/delta.hpp:44-145 *)
Inductive delta :=
| CreateDelta (a : N)
| UpdateDelta (a : N) (previous : object)
| SuicideDelta (a : N)
| TouchDelta (a : N)
| StorageChangeDelta (a k previous : N)
| StorageWipeDelta (a : N) (st : storage)
| StorageCreateDelta (a : N)
| StorageAccessDelta (a k : N)
| AccountAccessDelta (a : N).

(** intra_block_state.hpp:133-150. The journal vector is kept newest first; accessed_storage_keys_, a map of
    sets, is a set of pairs. *)
Record ibs := mkIbs {
  objects : gmap N object;
  storages : gmap N storage;
  codes : gmap bytes bytes;
  journal : list delta;
  self_destructs : gset N;
  logs : list log;
  touched : gset N;
  refund : N;
  accessed_addresses : gset N;
  accessed_keys : gset (N * N)
}.

(** intra_block_state.hpp:54 *)
Definition ibs_new : ibs := mkIbs ∅ ∅ ∅ [] ∅ [] ∅ 0 ∅ ∅.

Definition set_objects (s : ibs) x := mkIbs x (storages s) (codes s) (journal s) (self_destructs s) (logs s) (touched s) (refund s) (accessed_addresses s) (accessed_keys s).
Definition set_storages (s : ibs) x := mkIbs (objects s) x (codes s) (journal s) (self_destructs s) (logs s) (touched s) (refund s) (accessed_addresses s) (accessed_keys s).
Definition set_codes (s : ibs) x := mkIbs (objects s) (storages s) x (journal s) (self_destructs s) (logs s) (touched s) (refund s) (accessed_addresses s) (accessed_keys s).
Definition set_journal (s : ibs) x := mkIbs (objects s) (storages s) (codes s) x (self_destructs s) (logs s) (touched s) (refund s) (accessed_addresses s) (accessed_keys s).
Definition set_self_destructs (s : ibs) x := mkIbs (objects s) (storages s) (codes s) (journal s) x (logs s) (touched s) (refund s) (accessed_addresses s) (accessed_keys s).
Definition set_logs (s : ibs) x := mkIbs (objects s) (storages s) (codes s) (journal s) (self_destructs s) x (touched s) (refund s) (accessed_addresses s) (accessed_keys s).
Definition set_touched (s : ibs) x := mkIbs (objects s) (storages s) (codes s) (journal s) (self_destructs s) (logs s) x (refund s) (accessed_addresses s) (accessed_keys s).
Definition set_refund (s : ibs) x := mkIbs (objects s) (storages s) (codes s) (journal s) (self_destructs s) (logs s) (touched s) x (accessed_addresses s) (accessed_keys s).
Definition set_accessed_addresses (s : ibs) x := mkIbs (objects s) (storages s) (codes s) (journal s) (self_destructs s) (logs s) (touched s) (refund s) x (accessed_keys s).
Definition set_accessed_keys (s : ibs) x := mkIbs (objects s) (storages s) (codes s) (journal s) (self_destructs s) (logs s) (touched s) (refund s) (accessed_addresses s) x.
Definition push (s : ibs) (d : delta) : ibs := set_journal s (d :: journal s).

Section Ibs.
  Variable keccak : bytes -> bytes.
  Variable db : db_reader.

  (** intra_block_state.cpp:28-43: the object, if any, and the state with the object cached. *)
  Definition get_object (s : ibs) (a : N) : option object * ibs :=
    match objects s !! a with
    | Some o => (Some o, s)
    | None =>
      match read_account db a with
      | None => (None, s)
      | Some acc => let o := mkObj (Some acc) (Some acc) in (Some o, set_objects s (<[a := o]> (objects s)))
      end
    end.

  (** intra_block_state.cpp:45-58: the object has a current account afterwards. *)
  Definition get_or_create_object (s : ibs) (a : N) : object * account * ibs :=
    let '(o, s) := get_object s a in
    match o with
    | None =>
      let s := push s (CreateDelta a) in
      let o := mkObj None (Some account_default) in
      (o, account_default, set_objects s (<[a := o]> (objects s)))
    | Some o =>
      match o_current o with
      | None =>
        let s := push s (UpdateDelta a o) in
        let o := mkObj (o_initial o) (Some account_default) in
        (o, account_default, set_objects s (<[a := o]> (objects s)))
      | Some acc => (o, acc, s)
      end
    end.

  Definition current_of (o : option object) : option account :=
    match o with Some o => o_current o | None => None end.

  (** intra_block_state.cpp:60-63 *)
  Definition exists_ (s : ibs) (a : N) : bool * ibs :=
    let '(o, s) := get_object s a in (match current_of o with Some _ => true | None => false end, s).

  (** intra_block_state.cpp:65-71 *)
  Definition is_dead (s : ibs) (a : N) : bool * ibs :=
    let '(o, s) := get_object s a in
    (match current_of o with
     | None => true
     | Some c => bytes_eqb (a_code_hash c) kEmptyHash && (a_nonce c =? 0) && (a_balance c =? 0)
     end, s).

  (** intra_block_state.cpp:73-107; uint64_t incarnation. *)
  Definition create_contract (s : ibs) (a : N) : ibs :=
    let '(prev, s) := get_object s a in
    let balance := match current_of prev with Some c => a_balance c | None => 0 end in
    let initial := match prev with Some p => o_initial p | None => None end in
    let prev_incarnation :=
      match prev with
      | Some p =>
        match o_current p with
        | Some c => a_incarnation c
        | None => match o_initial p with Some i => a_incarnation i | None => 0 end
        end
      | None => 0
      end in
    let s := match prev with Some p => push s (UpdateDelta a p) | None => push s (CreateDelta a) end in
    let prev_incarnation := if prev_incarnation =? 0 then previous_incarnation db a else prev_incarnation in
    let created := mkObj initial (Some (mkAccount 0 balance kEmptyHash ((prev_incarnation + 1) mod 2 ^ 64))) in
    let s := set_objects s (<[a := created]> (objects s)) in
    match storages s !! a with
    | None => push s (StorageCreateDelta a)
    | Some st => let s := push s (StorageWipeDelta a st) in set_storages s (delete a (storages s))
    end.

  (** intra_block_state.cpp:109-117 *)
  Definition kRipemdAddress : N := 3.
  Definition touch (s : ibs) (a : N) : ibs :=
    let inserted := bool_decide (a ∉ touched s) in
    let s := set_touched s ({[a]} ∪ touched s) in
    if inserted && negb (a =? kRipemdAddress) then push s (TouchDelta a) else s.

  (** intra_block_state.cpp:119-124 *)
  Definition record_suicide (s : ibs) (a : N) : ibs :=
    let inserted := bool_decide (a ∉ self_destructs s) in
    let s := set_self_destructs s ({[a]} ∪ self_destructs s) in
    if inserted then push s (SuicideDelta a) else s.

  (** intra_block_state.cpp:142-148 *)
  Definition destruct_ (s : ibs) (a : N) : ibs :=
    let s := set_storages s (delete a (storages s)) in
    let '(o, s) := get_object s a in
    match o with
    | Some o => set_objects s (<[a := mkObj (o_initial o) None]> (objects s))
    | None => s
    end.

  (** intra_block_state.cpp:126-130; [order] is the iteration order of the hash set. *)
  Definition destruct_suicides (s : ibs) (order : list N) : ibs := fold_left destruct_ order s.

  (** intra_block_state.cpp:132-138 *)
  Definition destruct_touched_dead (s : ibs) (order : list N) : ibs :=
    fold_left (fun s a => let '(dead, s) := is_dead s a in if dead then destruct_ s a else s) order s.

  (** intra_block_state.cpp:150-153, 176-179 *)
  Definition get_balance (s : ibs) (a : N) : N * ibs :=
    let '(o, s) := get_object s a in (match current_of o with Some c => a_balance c | None => 0 end, s).
  Definition get_nonce (s : ibs) (a : N) : N * ibs :=
    let '(o, s) := get_object s a in (match current_of o with Some c => a_nonce c | None => 0 end, s).

  Definition with_balance (c : account) (v : N) := mkAccount (a_nonce c) v (a_code_hash c) (a_incarnation c).
  Definition with_nonce (c : account) (v : N) := mkAccount v (a_balance c) (a_code_hash c) (a_incarnation c).
  Definition with_code_hash (c : account) (v : bytes) := mkAccount (a_nonce c) (a_balance c) v (a_incarnation c).

  (** Common part of lines 155-174 and 181-185: journal the object, then replace its current account. *)
  Definition update_current (s : ibs) (a : N) (f : account -> account) : ibs :=
    let '(o, c, s) := get_or_create_object s a in
    let s := push s (UpdateDelta a o) in
    set_objects s (<[a := mkObj (o_initial o) (Some (f c))]> (objects s)).

  (** intra_block_state.cpp:155-174, uint256 arithmetic wraps *)
  Definition set_balance (s : ibs) (a v : N) : ibs := touch (update_current s a (fun c => with_balance c v)) a.
  Definition add_to_balance (s : ibs) (a v : N) : ibs :=
    touch (update_current s a (fun c => with_balance c ((a_balance c + v) mod 2 ^ 256))) a.
  Definition subtract_from_balance (s : ibs) (a v : N) : ibs :=
    touch (update_current s a (fun c => with_balance c ((a_balance c + 2 ^ 256 - v) mod 2 ^ 256))) a.

  (** intra_block_state.cpp:181-185 *)
  Definition set_nonce (s : ibs) (a n : N) : ibs := update_current s a (fun c => with_nonce c n).

  (** intra_block_state.cpp:187-205 *)
  Definition get_code (s : ibs) (a : N) : bytes * ibs :=
    let '(o, s) := get_object s a in
    match current_of o with
    | None => ([], s)
    | Some c =>
      if bytes_eqb (a_code_hash c) kEmptyHash then ([], s)
      else
        match codes s !! a_code_hash c with
        | Some code => (code, s)
        | None => let code := read_code db (a_code_hash c) in (code, set_codes s (<[a_code_hash c := code]> (codes s)))
        end
    end.

  (** intra_block_state.cpp:207-210 *)
  Definition get_code_hash (s : ibs) (a : N) : bytes * ibs :=
    let '(o, s) := get_object s a in (match current_of o with Some c => a_code_hash c | None => kEmptyHash end, s).

  (** intra_block_state.cpp:212-220; try_emplace keeps an existing entry. *)
  Definition set_code (s : ibs) (a : N) (code : bytes) : ibs :=
    let s := update_current s a (fun c => with_code_hash c (keccak code)) in
    match codes s !! keccak code with
    | Some _ => s
    | None => set_codes s (<[keccak code := code]> (codes s))
    end.

  (** intra_block_state.cpp:222-236; true = EVMC_ACCESS_COLD *)
  Definition access_account (s : ibs) (a : N) : bool * ibs :=
    let cold := bool_decide (a ∉ accessed_addresses s) in
    let s := set_accessed_addresses s ({[a]} ∪ accessed_addresses s) in
    (cold, if cold then push s (AccountAccessDelta a) else s).
  Definition access_storage (s : ibs) (a k : N) : bool * ibs :=
    let cold := bool_decide ((a, k) ∉ accessed_keys s) in
    let s := set_accessed_keys s ({[(a, k)]} ∪ accessed_keys s) in
    (cold, if cold then push s (StorageAccessDelta a k) else s).

  Definition storage_of (s : ibs) (a : N) : storage := default storage_empty (storages s !! a).

  (** intra_block_state.cpp:238-281; storage_[address] creates the entry. *)
  Definition get_storage (s : ibs) (a k : N) (original : bool) : N * ibs :=
    let '(o, s) := get_object s a in
    match o with
    | None => (0, s)
    | Some o =>
      match o_current o with
      | None => (0, s)
      | Some c =>
        let st := storage_of s a in
        let s := set_storages s (<[a := st]> (storages s)) in
        match (if original then None else st_current st !! k) with
        | Some v => (v, s)
        | None =>
          match st_committed st !! k with
          | Some cv => (cv_original cv, s)
          | None =>
            if match o_initial o with Some i => negb (a_incarnation i =? a_incarnation c) | None => true end then (0, s)
            else
              let v := read_storage db a (a_incarnation c) k in
              (v, set_storages s (<[a := mkSt (<[k := mkCv v v]> (st_committed st)) (st_current st)]> (storages s)))
          end
        end
      end
    end.
  Definition get_current_storage (s : ibs) (a k : N) := get_storage s a k false.
  Definition get_original_storage (s : ibs) (a k : N) := get_storage s a k true.

  (** intra_block_state.cpp:283-291 *)
  Definition set_storage (s : ibs) (a k v : N) : ibs :=
    let '(prev, s) := get_current_storage s a k in
    if prev =? v then s
    else
      let st := storage_of s a in
      let s := set_storages s (<[a := mkSt (st_committed st) (<[k := v]> (st_current st))]> (storages s)) in
      push s (StorageChangeDelta a k prev).

  (** delta.cpp:27-63 *)
  Definition revert_delta (s : ibs) (d : delta) : ibs :=
    match d with
    | CreateDelta a => set_objects s (delete a (objects s))
    | UpdateDelta a p => set_objects s (<[a := p]> (objects s))
    | SuicideDelta a => set_self_destructs s (self_destructs s ∖ {[a]})
    | TouchDelta a => set_touched s (touched s ∖ {[a]})
    | StorageChangeDelta a k p =>
      let st := storage_of s a in
      set_storages s (<[a := mkSt (st_committed st) (<[k := p]> (st_current st))]> (storages s))
    | StorageWipeDelta a st => set_storages s (<[a := st]> (storages s))
    | StorageCreateDelta a => set_storages s (delete a (storages s))
    | StorageAccessDelta a k => set_accessed_keys s (accessed_keys s ∖ {[(a, k)]})
    | AccountAccessDelta a => set_accessed_addresses s (accessed_addresses s ∖ {[a]})
    end.

  (** intra_block_state.cpp:322-337. logs_.resize to a smaller or equal size. *)
  Record snapshot := mkSnap { journal_size : nat; log_size : nat; snap_refund : N }.
  Definition take_snapshot (s : ibs) : snapshot := mkSnap (length (journal s)) (length (logs s)) (refund s).
  Definition revert_to_snapshot (s : ibs) (n : snapshot) : ibs :=
    let undone := take (length (journal s) - journal_size n) (journal s) in
    let s' := fold_left revert_delta undone s in
    let s' := set_journal s' (drop (length (journal s) - journal_size n) (journal s)) in
    let s' := set_logs s' (take (log_size n) (logs s')) in
    set_refund s' (snap_refund n).

  (** intra_block_state.cpp:339-347; the loops visit every key once. *)
  Definition finalize_storage (st : storage) : storage :=
    mkSt (merge (fun (c : option committed_value) (v : option N) =>
                   match c, v with
                   | Some c, Some v => Some (mkCv (cv_initial c) v)
                   | None, Some v => Some (mkCv 0 v)
                   | c, None => c
                   end) (st_committed st) (st_current st)) ∅.
  Definition finalize_transaction (s : ibs) : ibs := set_storages s (finalize_storage <$> storages s).

  (** intra_block_state.cpp:349-360 *)
  Definition clear_journal_and_substate (s : ibs) : ibs := mkIbs (objects s) (storages s) (codes s) [] ∅ [] ∅ 0 ∅ ∅.

  (** intra_block_state.cpp:362-366 (uint64_t) *)
  Definition add_log (s : ibs) (l : log) : ibs := set_logs s (logs s ++ [l]).
  Definition add_refund (s : ibs) (n : N) : ibs := set_refund s ((refund s + n) mod 2 ^ 64).
  Definition subtract_refund (s : ibs) (n : N) : ibs := set_refund s ((refund s + 2 ^ 64 - n) mod 2 ^ 64).
End Ibs.
