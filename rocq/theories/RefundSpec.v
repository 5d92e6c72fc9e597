(** Refunds of SSTORE: EIP-1283 (Constantinople), EIP-2200 (Istanbul), EIP-2929 (Berlin), EIP-3529 (London), and the
    original rule in the other revisions, for any number of writes inside any nesting of frames that are kept or reverted. *)
From Coq Require Import ZArith.
From Verif Require Import Base ChainModel StateModel EvmModel.

Inductive act :=
| Write (a key v : N)
| Frame (kept : bool) (body : list act).

(** (refund for clearing a slot, for restoring a zero, for restoring another value) *)
Definition schedule (rev : N) : option (Z * Z * Z) :=
  if rev =? EVMC_CONSTANTINOPLE then Some (15000, 19800, 4800)%Z
  else if rev <? EVMC_ISTANBUL then None
  else if rev <? EVMC_BERLIN then Some (15000, 19200, 4200)%Z
  else if rev <? EVMC_LONDON then Some (15000, 19900, 2800)%Z
  else Some (4800, 19900, 2800)%Z.

(** Status and change of the refund counter when a slot with value [o] at the start of the transaction and [c] now
    becomes [n]. *)
Definition sstore (rev o c n : N) : storage_status * Z :=
  if c =? n then (ST_UNCHANGED, 0%Z)
  else match schedule rev with
       | None => if c =? 0 then (ST_ADDED, 0%Z) else if n =? 0 then (ST_DELETED, 15000%Z) else (ST_MODIFIED, 0%Z)
       | Some (clear, restore0, restore) =>
         if c =? o then (if o =? 0 then ST_ADDED else ST_MODIFIED, if negb (o =? 0) && (n =? 0) then clear else 0%Z)
         else (ST_MODIFIED_AGAIN,
               let removed := if negb (o =? 0) && (c =? 0) then clear else 0%Z in
               let added := if negb (o =? 0) && (n =? 0) then clear else 0%Z in
               let restored := if n =? o then if o =? 0 then restore0 else restore else 0%Z in
               (added + restored - removed)%Z)
       end.

Record account := mkAcc { values : N -> N -> N; counter : Z; statuses : list storage_status }.
Definition update (f : N -> N -> N) (a k v : N) : N -> N -> N := fun x y => if (x =? a) && (y =? k) then v else f x y.
Fixpoint account_for (rev : N) (orig : N -> N -> N) (x : act) (w : account) : account :=
  match x with
  | Write a k v =>
    let '(t, d) := sstore rev (orig a k) (values w a k) v in
    mkAcc (update (values w) a k v) (counter w + d)%Z (statuses w ++ [t])
  | Frame kept body =>
    let w' := fold_left (fun w y => account_for rev orig y w) body w in
    if kept then w' else mkAcc (values w) (counter w) (statuses w')
  end.

Fixpoint writes (x : act) : N := match x with Write _ _ _ => 1 | Frame _ b => fold_right (fun y n => writes y + n) 0 b end.
Fixpoint writers (x : act) : list N := match x with Write a _ _ => [a] | Frame _ b => flat_map writers b end.

(** The host: EvmHost::set_storage, take_snapshot and revert_to_snapshot. *)
Fixpoint perform (db : db_reader) (rev : N) (x : act) (st : ibs * list storage_status) : ibs * list storage_status :=
  match x with
  | Write a k v => let '(s, l) := st in let '(t, s) := host_set_storage db rev s a k v in (s, l ++ [t])
  | Frame kept body =>
    let n := take_snapshot (fst st) in
    let '(s, l) := fold_left (fun st y => perform db rev y st) body st in
    (if kept then s else revert_to_snapshot s n, l)
  end.
