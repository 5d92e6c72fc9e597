(** A second reference machine for histories of calls to IntraBlockState (StateSpec.op), this one with incarnations.

    The first machine (StateSpec) is what the protocol wants: a contract just created has no storage. The
    implementation instead gives a created contract the next incarnation number and looks storage up under
    that number. This machine does the same, and nothing else of the implementation: no journal, no caches, a snapshot
    is a copy of the whole world. It has no excluded histories. *)
From stdpp Require Import gmap.
From Verif Require Import Base RlpModel TypesModel StateModel StateSpec.

(** An account is its nonce, balance, code hash and incarnation. *)
Record xworld := mkX {
  x_acct : N -> option account;
  x_current : N -> N -> N;
  x_original : N -> N -> N;
  x_suicides : gset N;
  x_logs : list log;
  x_touched : gset N;
  x_refund : N;
  x_addresses : gset N;
  x_keys : gset (N * N)
}.
Definition x_set_acct (w : xworld) f := mkX f (x_current w) (x_original w) (x_suicides w) (x_logs w) (x_touched w) (x_refund w) (x_addresses w) (x_keys w).
Definition x_set_storage (w : xworld) c o := mkX (x_acct w) c o (x_suicides w) (x_logs w) (x_touched w) (x_refund w) (x_addresses w) (x_keys w).
Definition x_set_sub (w : xworld) su lo to re ad ke := mkX (x_acct w) (x_current w) (x_original w) su lo to re ad ke.

Definition x_touch (w : xworld) (a : N) : xworld :=
  x_set_sub w (x_suicides w) (x_logs w) ({[a]} ∪ x_touched w) (x_refund w) (x_addresses w) (x_keys w).
Definition x_get (w : xworld) (a : N) : account := default account_default (x_acct w a).
Definition x_exists (w : xworld) (a : N) : bool := match x_acct w a with Some _ => true | None => false end.
Definition x_modify (w : xworld) (a : N) (f : account -> account) : xworld := x_set_acct w (upd (x_acct w) a (Some (f (x_get w a)))).
Definition x_dead (w : xworld) (a : N) : bool :=
  match x_acct w a with
  | None => true
  | Some c => bytes_eqb (a_code_hash c) kEmptyHash && (a_nonce c =? 0) && (a_balance c =? 0)
  end.
Definition x_destruct (w : xworld) (a : N) : xworld :=
  x_set_storage (x_set_acct w (upd (x_acct w) a None)) (upd (x_current w) a (fun _ => 0)) (upd (x_original w) a (fun _ => 0)).
(** As StateSpec.w_restore: a revert restores everything, except that address 3 stays touched. *)
Definition x_restore (saved now : xworld) : xworld :=
  x_set_sub saved (x_suicides saved) (x_logs saved) (if bool_decide (3 ∈ x_touched now) then {[3]} ∪ x_touched saved else x_touched saved)
    (x_refund saved) (x_addresses saved) (x_keys saved).

Section Exact.
  Variables (keccak code_of : bytes -> bytes) (db : db_reader).

  (** The incarnation a creation at [a] gets: one more than that of the account there; if there is none, than that of the
      account that was there at the beginning of the block; if that is no contract either, than the last recorded. *)
  Definition next_incarnation (w : xworld) (a : N) : N :=
    let last := match x_acct w a with
                | Some c => a_incarnation c
                | None => match read_account db a with Some i => a_incarnation i | None => 0 end
                end in
    ((if last =? 0 then previous_incarnation db a else last) + 1) mod 2 ^ 64.
  (** The storage of a contract just created: what the database has under that incarnation, if it is the one of the account at
      the beginning of the block, and nothing otherwise. *)
  Definition created_storage (w : xworld) (a k : N) : N :=
    match read_account db a with
    | Some i => if a_incarnation i =? next_incarnation w a then read_storage db a (next_incarnation w a) k else 0
    | None => 0
    end.

  (** None: storage written in an account that does not exist, or an unknown snapshot. *)
  Definition xstep (x : xworld * list xworld) (o : op) : option (obs * (xworld * list xworld)) :=
    let '(w, sn) := x in
    let ret v := Some (v, x) in
    let set w' := Some (VUnit, (w', sn)) in
    match o with
    | OExists a => ret (VBool (x_exists w a))
    | OIsDead a => ret (VBool (x_dead w a))
    | OBalance a => ret (VNum (a_balance (x_get w a)))
    | ONonce a => ret (VNum (a_nonce (x_get w a)))
    | OCode a => ret (VBytes (code_of (a_code_hash (x_get w a))))
    | OCodeHash a => ret (VBytes (a_code_hash (x_get w a)))
    | OCurrent a k => ret (VNum (if x_exists w a then x_current w a k else 0))
    | OOriginal a k => ret (VNum (if x_exists w a then x_original w a k else 0))
    | OCreate a =>
      set (x_set_storage (x_set_acct w (upd (x_acct w) a (Some (mkAccount 0 (a_balance (x_get w a)) kEmptyHash (next_incarnation w a)))))
             (upd (x_current w) a (created_storage w a)) (upd (x_original w) a (created_storage w a)))
    | OSetBalance a v => set (x_touch (x_modify w a (fun c => mkAccount (a_nonce c) v (a_code_hash c) (a_incarnation c))) a)
    | OAddBalance a v =>
      set (x_touch (x_modify w a (fun c => mkAccount (a_nonce c) ((a_balance c + v) mod 2 ^ 256) (a_code_hash c) (a_incarnation c))) a)
    | OSubBalance a v =>
      set (x_touch (x_modify w a (fun c => mkAccount (a_nonce c) ((a_balance c + 2 ^ 256 - v) mod 2 ^ 256) (a_code_hash c) (a_incarnation c))) a)
    | OSetNonce a n => set (x_modify w a (fun c => mkAccount n (a_balance c) (a_code_hash c) (a_incarnation c)))
    | OSetCode a code => set (x_modify w a (fun c => mkAccount (a_nonce c) (a_balance c) (keccak code) (a_incarnation c)))
    | OSetStorage a k v =>
      if x_exists w a then set (x_set_storage w (upd (x_current w) a (upd (x_current w a) k v)) (x_original w)) else None
    | OAccessAccount a =>
      Some (VBool (bool_decide (a ∉ x_addresses w)),
            (x_set_sub w (x_suicides w) (x_logs w) (x_touched w) (x_refund w) ({[a]} ∪ x_addresses w) (x_keys w), sn))
    | OAccessStorage a k =>
      Some (VBool (bool_decide ((a, k) ∉ x_keys w)),
            (x_set_sub w (x_suicides w) (x_logs w) (x_touched w) (x_refund w) (x_addresses w) ({[(a, k)]} ∪ x_keys w), sn))
    | OTouch a => set (x_touch w a)
    | OSuicide a => set (x_set_sub w ({[a]} ∪ x_suicides w) (x_logs w) (x_touched w) (x_refund w) (x_addresses w) (x_keys w))
    | OAddLog l => set (x_set_sub w (x_suicides w) (x_logs w ++ [l]) (x_touched w) (x_refund w) (x_addresses w) (x_keys w))
    | OAddRefund n =>
      set (x_set_sub w (x_suicides w) (x_logs w) (x_touched w) ((x_refund w + n) mod 2 ^ 64) (x_addresses w) (x_keys w))
    | OSubRefund n =>
      set (x_set_sub w (x_suicides w) (x_logs w) (x_touched w) ((x_refund w + 2 ^ 64 - n) mod 2 ^ 64) (x_addresses w) (x_keys w))
    | OSuicides => ret (VNum (N.of_nat (size (x_suicides w))))
    | OLogs => ret (VLogs (x_logs w))
    | ORefund => ret (VNum (x_refund w))
    | OSnapshot => Some (VUnit, (w, sn ++ [w]))
    | ORevert i =>
      match nth_error sn i with
      | Some saved => Some (VUnit, (x_restore saved w, firstn (S i) sn))
      | None => None
      end
    | OFinalize => Some (VUnit, (x_set_storage w (x_current w) (x_current w), []))
    | ODestruct a => Some (VUnit, (x_destruct w a, []))
    | ODestructSuicides l => Some (VUnit, (fold_left x_destruct l w, []))
    | ODestructTouchedDead l => Some (VUnit, (fold_left (fun w a => if x_dead w a then x_destruct w a else w) l w, []))
    | OClear => Some (VUnit, (x_set_sub w ∅ [] ∅ 0 ∅ ∅, []))
    end.
  Fixpoint xrun (x : xworld * list xworld) (ops : list op) : option (list obs * (xworld * list xworld)) :=
    match ops with
    | [] => Some ([], x)
    | o :: t =>
      match xstep x o with
      | None => None
      | Some (v, x) => match xrun x t with Some (vs, x) => Some (v :: vs, x) | None => None end
      end
    end.
End Exact.

(** The database at the beginning of a block. *)
Definition xworld_of (db : db_reader) : xworld :=
  let storage a k := match read_account db a with Some c => read_storage db a (a_incarnation c) k | None => 0 end in
  mkX (read_account db) storage storage ∅ [] ∅ 0 ∅ ∅.

(** Non-contracts have no storage in the database, and codes are stored under their hashes; [code_of] names the code
    behind each hash, as in StateSpec. No condition on incarnations. *)
Definition db_sound (code_of : bytes -> bytes) (db : db_reader) : Prop :=
  (forall a k, read_storage db a 0 k = 0)
  /\ forall a c, read_account db a = Some c -> a_code_hash c <> kEmptyHash -> read_code db (a_code_hash c) = code_of (a_code_hash c).
(** No two of the codes set (or the empty code) share a hash. *)
Definition codes_apart (keccak code_of : bytes -> bytes) (ops : list op) : Prop :=
  code_of kEmptyHash = [] /\ forall c, In c (flat_map op_code ops) -> code_of (keccak c) = c.

(** The histories a caller of the class may make: storage is written only in accounts that exist, and only snapshots that
    are still valid are reverted to. (The EVM writes the storage of the account whose code it runs.) *)
Definition allowed (db : db_reader) (x : ibs * list snapshot) (o : op) : bool :=
  match o with
  | OSetStorage a _ _ => fst (exists_ db (fst x) a)
  | ORevert i => (i <? length (snd x))%nat
  | _ => true
  end.
Fixpoint lawful (keccak : bytes -> bytes) (db : db_reader) (x : ibs * list snapshot) (ops : list op) : bool :=
  match ops with
  | [] => true
  | o :: t => allowed db x o && lawful keccak db (snd (cstep keccak db x o)) t
  end.

(** ** Transaction boundary *)
(** The calls processor.cpp:98-103 and :63 make between two transactions; [eip161]: from Spurious Dragon on. *)
Definition x_boundary (eip161 : bool) (suicides touched : list N) : list op :=
  [ODestructSuicides suicides] ++ (if eip161 then [ODestructTouchedDead touched] else []) ++ [OFinalize; OClear].
(** Accounts that do not survive: the self-destructed and, from Spurious Dragon on, the touched empty ones. *)
Definition x_vanishes (eip161 : bool) (w : xworld) (a : N) : bool :=
  bool_decide (a ∈ x_suicides w) || eip161 && bool_decide (a ∈ x_touched w) && x_dead w a.
Definition x_after_boundary (eip161 : bool) (w : xworld) : xworld :=
  let storage a k := if x_vanishes eip161 w a then 0 else x_current w a k in
  mkX (fun a => if x_vanishes eip161 w a then None else x_acct w a) storage storage ∅ [] ∅ 0 ∅ ∅.
