(** The world state as a user sees it, and a reference machine for histories of calls to IntraBlockState.

    The reference machine has no journal, no caches and no incarnations: an account is its nonce, balance and code,
    storage is a function, and a snapshot is a copy of the whole world. *)
From stdpp Require Import gmap.
From Verif Require Import Base RlpModel TypesModel StateModel.

(** ** Calls *)
Inductive op :=
| OExists (a : N) | OIsDead (a : N) | OBalance (a : N) | ONonce (a : N) | OCode (a : N) | OCodeHash (a : N)
| OCurrent (a k : N) | OOriginal (a k : N)
| OCreate (a : N) | OSetBalance (a v : N) | OAddBalance (a v : N) | OSubBalance (a v : N) | OSetNonce (a n : N)
| OSetCode (a : N) (c : bytes) | OSetStorage (a k v : N)
| OAccessAccount (a : N) | OAccessStorage (a k : N) | OTouch (a : N) | OSuicide (a : N)
| OAddLog (l : log) | OAddRefund (n : N) | OSubRefund (n : N)
| OSuicides | OLogs | ORefund
| OSnapshot | ORevert (i : nat)
| OFinalize | ODestruct (a : N) | ODestructSuicides (order : list N) | ODestructTouchedDead (order : list N) | OClear.

(** Results *)
Inductive obs := VUnit | VBool (b : bool) | VNum (n : N) | VBytes (b : bytes) | VLogs (l : list log).

(** The implementation under a history. Snapshots are numbered in the order they were taken; reverting to number
    [i] invalidates the later ones, destroying accounts or ending the transaction invalidates all. *)
Section Run.
  Variable keccak : bytes -> bytes.
  Variable db : db_reader.

  Definition cstep (x : ibs * list snapshot) (o : op) : obs * (ibs * list snapshot) :=
    let '(s, sn) := x in
    let num (r : N * ibs) := (VNum (fst r), (snd r, sn)) in
    let boo (r : bool * ibs) := (VBool (fst r), (snd r, sn)) in
    let byt (r : bytes * ibs) := (VBytes (fst r), (snd r, sn)) in
    let uni (r : ibs) := (VUnit, (r, sn)) in
    match o with
    | OExists a => boo (exists_ db s a)
    | OIsDead a => boo (is_dead db s a)
    | OBalance a => num (get_balance db s a)
    | ONonce a => num (get_nonce db s a)
    | OCode a => byt (get_code db s a)
    | OCodeHash a => byt (get_code_hash db s a)
    | OCurrent a k => num (get_current_storage db s a k)
    | OOriginal a k => num (get_original_storage db s a k)
    | OCreate a => uni (create_contract db s a)
    | OSetBalance a v => uni (set_balance db s a v)
    | OAddBalance a v => uni (add_to_balance db s a v)
    | OSubBalance a v => uni (subtract_from_balance db s a v)
    | OSetNonce a n => uni (set_nonce db s a n)
    | OSetCode a c => uni (set_code keccak db s a c)
    | OSetStorage a k v => uni (set_storage db s a k v)
    | OAccessAccount a => boo (access_account s a)
    | OAccessStorage a k => boo (access_storage s a k)
    | OTouch a => uni (touch s a)
    | OSuicide a => uni (record_suicide s a)
    | OAddLog l => uni (add_log s l)
    | OAddRefund n => uni (add_refund s n)
    | OSubRefund n => uni (subtract_refund s n)
    | OSuicides => (VNum (N.of_nat (size (self_destructs s))), x)
    | OLogs => (VLogs (logs s), x)
    | ORefund => (VNum (refund s), x)
    | OSnapshot => (VUnit, (s, sn ++ [take_snapshot s]))
    | ORevert i =>
      match nth_error sn i with
      | Some n => (VUnit, (revert_to_snapshot s n, firstn (S i) sn))
      | None => (VUnit, x)
      end
    | OFinalize => (VUnit, (finalize_transaction s, []))
    | ODestruct a => (VUnit, (destruct_ db s a, []))
    | ODestructSuicides l => (VUnit, (destruct_suicides db s l, []))
    | ODestructTouchedDead l => (VUnit, (destruct_touched_dead db s l, []))
    | OClear => (VUnit, (clear_journal_and_substate s, []))
    end.
  Fixpoint crun (x : ibs * list snapshot) (ops : list op) : list obs * (ibs * list snapshot) :=
    match ops with
    | [] => ([], x)
    | o :: t => let '(v, x) := cstep x o in let '(vs, x) := crun x t in (v :: vs, x)
    end.
End Run.

(** ** The world *)
(** [ac_contract]: created by create_contract (only such accounts have storage). *)
Record acct := mkAcct { ac_nonce : N; ac_balance : N; ac_code : bytes; ac_contract : bool }.
Definition acct_new : acct := mkAcct 0 0 [] false.
(** [w_gone]: existed and was destroyed since the beginning of the block.
    [w_born]: is a contract created since the beginning of the block. *)
Record world := mkWorld {
  w_acct : N -> option acct;
  w_current : N -> N -> N;
  w_original : N -> N -> N;
  w_gone : N -> bool;
  w_born : N -> bool;
  w_suicides : gset N;
  w_logs : list log;
  w_touched : gset N;
  w_refund : N;
  w_addresses : gset N;
  w_keys : gset (N * N)
}.

Definition upd {A} (f : N -> A) (a : N) (x : A) : N -> A := fun b => if b =? a then x else f b.

Definition w_set_acct (w : world) f := mkWorld f (w_current w) (w_original w) (w_gone w) (w_born w) (w_suicides w) (w_logs w) (w_touched w) (w_refund w) (w_addresses w) (w_keys w).
Definition w_set_storage (w : world) c o := mkWorld (w_acct w) c o (w_gone w) (w_born w) (w_suicides w) (w_logs w) (w_touched w) (w_refund w) (w_addresses w) (w_keys w).
Definition w_set_gone (w : world) g b := mkWorld (w_acct w) (w_current w) (w_original w) g b (w_suicides w) (w_logs w) (w_touched w) (w_refund w) (w_addresses w) (w_keys w).
Definition w_set_sub (w : world) su lo to re ad ke := mkWorld (w_acct w) (w_current w) (w_original w) (w_gone w) (w_born w) su lo to re ad ke.

Definition w_touch (w : world) (a : N) : world :=
  w_set_sub w (w_suicides w) (w_logs w) ({[a]} ∪ w_touched w) (w_refund w) (w_addresses w) (w_keys w).
Definition w_get (w : world) (a : N) : acct := match w_acct w a with Some c => c | None => acct_new end.
Definition w_modify (w : world) (a : N) (f : acct -> acct) : world := w_set_acct w (upd (w_acct w) a (Some (f (w_get w a)))).
Definition w_exists (w : world) (a : N) : bool := match w_acct w a with Some _ => true | None => false end.
Definition w_dead (w : world) (a : N) : bool :=
  match w_acct w a with
  | None => true
  | Some c => match ac_code c with [] => (ac_nonce c =? 0) && (ac_balance c =? 0) | _ => false end
  end.
Definition w_destruct (w : world) (a : N) : world :=
  w_set_gone
    (w_set_storage (w_set_acct w (upd (w_acct w) a None)) (upd (w_current w) a (fun _ => 0)) (upd (w_original w) a (fun _ => 0)))
    (upd (w_gone w) a (w_gone w a || w_exists w a)) (upd (w_born w) a false).
(** What a revert restores: everything, except that address 3 stays touched (Yellow Paper, Appendix K). *)
Definition w_restore (saved now : world) : world :=
  w_set_sub saved (w_suicides saved) (w_logs saved) (if bool_decide (3 ∈ w_touched now) then {[3]} ∪ w_touched saved else w_touched saved)
    (w_refund saved) (w_addresses saved) (w_keys saved).

Section Spec.
  Variable keccak : bytes -> bytes.
  (** the account was a contract at the beginning of the block *)
  Variable contract_at_start : N -> bool.

  (** None: the call is outside the contract of the class (storage written in a non-contract, unknown snapshot), or it
      is the one sequence the implementation gets wrong: creating a contract at an address that was a contract at
      the beginning of the block, was destroyed in an earlier transaction of the block and exists again. *)
  Definition astep (x : world * list world) (o : op) : option (obs * (world * list world)) :=
    let '(w, sn) := x in
    let ret v := Some (v, x) in
    let set w' := Some (VUnit, (w', sn)) in
    match o with
    | OExists a => ret (VBool (w_exists w a))
    | OIsDead a => ret (VBool (w_dead w a))
    | OBalance a => ret (VNum (ac_balance (w_get w a)))
    | ONonce a => ret (VNum (ac_nonce (w_get w a)))
    | OCode a => ret (VBytes (ac_code (w_get w a)))
    | OCodeHash a => ret (VBytes (keccak (ac_code (w_get w a))))
    | OCurrent a k => ret (VNum (if w_exists w a then w_current w a k else 0))
    | OOriginal a k => ret (VNum (if w_exists w a then w_original w a k else 0))
    | OCreate a =>
      if contract_at_start a && w_gone w a && w_exists w a then None
      else set (w_set_gone (w_set_storage (w_set_acct w (upd (w_acct w) a (Some (mkAcct 0 (ac_balance (w_get w a)) [] true))))
                  (upd (w_current w) a (fun _ => 0)) (upd (w_original w) a (fun _ => 0))) (w_gone w) (upd (w_born w) a true))
    | OSetBalance a v => set (w_touch (w_modify w a (fun c => mkAcct (ac_nonce c) v (ac_code c) (ac_contract c))) a)
    | OAddBalance a v =>
      set (w_touch (w_modify w a (fun c => mkAcct (ac_nonce c) ((ac_balance c + v) mod 2 ^ 256) (ac_code c) (ac_contract c))) a)
    | OSubBalance a v =>
      set (w_touch (w_modify w a (fun c => mkAcct (ac_nonce c) ((ac_balance c + 2 ^ 256 - v) mod 2 ^ 256) (ac_code c) (ac_contract c))) a)
    | OSetNonce a n => set (w_modify w a (fun c => mkAcct n (ac_balance c) (ac_code c) (ac_contract c)))
    | OSetCode a code => set (w_modify w a (fun c => mkAcct (ac_nonce c) (ac_balance c) code (ac_contract c)))
    | OSetStorage a k v =>
      if w_exists w a && ac_contract (w_get w a)
      then set (w_set_storage w (upd (w_current w) a (upd (w_current w a) k v)) (w_original w))
      else None
    | OAccessAccount a =>
      Some (VBool (bool_decide (a ∉ w_addresses w)),
            (w_set_sub w (w_suicides w) (w_logs w) (w_touched w) (w_refund w) ({[a]} ∪ w_addresses w) (w_keys w), sn))
    | OAccessStorage a k =>
      Some (VBool (bool_decide ((a, k) ∉ w_keys w)),
            (w_set_sub w (w_suicides w) (w_logs w) (w_touched w) (w_refund w) (w_addresses w) ({[(a, k)]} ∪ w_keys w), sn))
    | OTouch a => set (w_touch w a)
    | OSuicide a => set (w_set_sub w ({[a]} ∪ w_suicides w) (w_logs w) (w_touched w) (w_refund w) (w_addresses w) (w_keys w))
    | OAddLog l => set (w_set_sub w (w_suicides w) (w_logs w ++ [l]) (w_touched w) (w_refund w) (w_addresses w) (w_keys w))
    | OAddRefund n =>
      set (w_set_sub w (w_suicides w) (w_logs w) (w_touched w) ((w_refund w + n) mod 2 ^ 64) (w_addresses w) (w_keys w))
    | OSubRefund n =>
      set (w_set_sub w (w_suicides w) (w_logs w) (w_touched w) ((w_refund w + 2 ^ 64 - n) mod 2 ^ 64) (w_addresses w) (w_keys w))
    | OSuicides => ret (VNum (N.of_nat (size (w_suicides w))))
    | OLogs => ret (VLogs (w_logs w))
    | ORefund => ret (VNum (w_refund w))
    | OSnapshot => Some (VUnit, (w, sn ++ [w]))
    | ORevert i =>
      match nth_error sn i with
      | Some saved => Some (VUnit, (w_restore saved w, firstn (S i) sn))
      | None => None
      end
    | OFinalize => Some (VUnit, (w_set_storage w (w_current w) (w_current w), []))
    | ODestruct a => Some (VUnit, (w_destruct w a, []))
    | ODestructSuicides l =>
      if bool_decide (l ≡ₚ elements (w_suicides w)) then Some (VUnit, (fold_left w_destruct l w, [])) else None
    | ODestructTouchedDead l =>
      if bool_decide (l ≡ₚ elements (w_touched w))
      then Some (VUnit, (fold_left (fun w a => if w_dead w a then w_destruct w a else w) l w, [])) else None
    | OClear => Some (VUnit, (w_set_sub w ∅ [] ∅ 0 ∅ ∅, []))
    end.
  Fixpoint arun (x : world * list world) (ops : list op) : option (list obs * (world * list world)) :=
    match ops with
    | [] => Some ([], x)
    | o :: t =>
      match astep x o with
      | None => None
      | Some (v, x) => match arun x t with Some (vs, x) => Some (v :: vs, x) | None => None end
      end
    end.
End Spec.

(** ** The database as a world *)
(** [code_of] names the code behind each hash; that it exists says that no two codes in play have the same hash. *)
Definition acct_of (code_of : bytes -> bytes) (c : account) : acct :=
  mkAcct (a_nonce c) (a_balance c) (code_of (a_code_hash c)) (negb (a_incarnation c =? 0)).
Definition world_of (code_of : bytes -> bytes) (db : db_reader) : world :=
  mkWorld (fun a => acct_of code_of <$> read_account db a)
    (fun a k => match read_account db a with Some c => read_storage db a (a_incarnation c) k | None => 0 end)
    (fun a k => match read_account db a with Some c => read_storage db a (a_incarnation c) k | None => 0 end)
    (fun _ => false) (fun _ => false) ∅ [] ∅ 0 ∅ ∅.
(** [w] is a beginning of a block over [db]. *)
Definition starts (code_of : bytes -> bytes) (db : db_reader) (w : world) : Prop :=
  (forall a, w_acct w a = acct_of code_of <$> read_account db a)
  /\ (forall a k, w_current w a k = match read_account db a with Some c => read_storage db a (a_incarnation c) k | None => 0 end)
  /\ (forall a k, w_original w a k = w_current w a k)
  /\ (forall a, w_gone w a = false) /\ (forall a, w_born w a = false)
  /\ w_suicides w = ∅ /\ w_logs w = [] /\ w_touched w = ∅ /\ w_refund w = 0 /\ w_addresses w = ∅ /\ w_keys w = ∅.
Definition db_contract (db : db_reader) (a : N) : bool :=
  match read_account db a with Some c => negb (a_incarnation c =? 0) | None => false end.

(** The database is sound: non-contracts have no storage, codes are stored under their hashes, incarnations have room
    for [room] more creations. *)
Definition db_ok (keccak code_of : bytes -> bytes) (db : db_reader) (room : N) : Prop :=
  (forall a k, read_storage db a 0 k = 0)
  /\ (forall a c, read_account db a = Some c ->
        keccak (code_of (a_code_hash c)) = a_code_hash c
        /\ (a_code_hash c <> kEmptyHash -> read_code db (a_code_hash c) = code_of (a_code_hash c))
        /\ a_incarnation c + room < 2 ^ 64)
  /\ (forall a, previous_incarnation db a + room < 2 ^ 64).

(** No two of the codes set (or the empty code) share a hash; kEmptyHash is the hash of the empty code. *)
Definition op_code (o : op) : list bytes := match o with OSetCode _ c => [c] | _ => [] end.
Definition codes_ok (keccak code_of : bytes -> bytes) (ops : list op) : Prop :=
  keccak [] = kEmptyHash /\ code_of kEmptyHash = [] /\ forall c, In c (flat_map op_code ops) -> code_of (keccak c) = c.

(** ** Transaction boundary *)
(** The calls processor.cpp:104-108 and :64 make between two transactions (from Spurious Dragon on). *)
Definition boundary (suicides touched : list N) : list op :=
  [ODestructSuicides suicides; ODestructTouchedDead touched; OFinalize; OClear].
(** Accounts that do not survive the boundary. *)
Definition vanishes (w : world) (a : N) : bool := bool_decide (a ∈ w_suicides w) || bool_decide (a ∈ w_touched w) && w_dead w a.
Definition after_boundary (w : world) : world :=
  let storage a k := if vanishes w a then 0 else w_current w a k in
  mkWorld (fun a => if vanishes w a then None else w_acct w a) storage storage
    (fun a => w_gone w a || vanishes w a && w_exists w a) (fun a => w_born w a && negb (vanishes w a)) ∅ [] ∅ 0 ∅ ∅.

(** [q] leaves the snapshots numbered up to [i] valid. *)
Definition keeps (i : nat) (q : op) : bool :=
  match q with
  | ORevert j => (i <=? j)%nat
  | OFinalize | ODestruct _ | ODestructSuicides _ | ODestructTouchedDead _ | OClear => false
  | _ => true
  end.
