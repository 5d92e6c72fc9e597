(** Programs over the interface of IntraBlockState: every call may depend on the answers to the earlier ones. A program can be run on the implementation over any store
    and on the reference machine of StateSpec. *)
From stdpp Require Import gmap.
From Verif Require Import Base RlpModel TypesModel StateModel StateSpec MemBufModel MemBufSpec.

Inductive script (A : Type) :=
| Ret (a : A)
| Ask (o : op) (k : obs -> script A)
| Suicides (k : script A)  (* destruct_suicides: the accounts are those of the set, in the order in which it is iterated *)
| TouchedDead (k : script A).  (* destruct_touched_dead *)
Arguments Ret {A}. Arguments Ask {A}. Arguments Suicides {A}. Arguments TouchedDead {A}.

Section Semantics.
  Variable keccak : bytes -> bytes.
  Variable iterate : gset N -> list N.

  (** On the implementation, over the store [db]. *)
  Fixpoint crun_script {A} (db : db_reader) (t : script A) (x : ibs * list snapshot) : A * (ibs * list snapshot) :=
    match t with
    | Ret a => (a, x)
    | Ask o k => let '(v, x) := cstep keccak db x o in crun_script db (k v) x
    | Suicides k => crun_script db k (snd (cstep keccak db x (ODestructSuicides (iterate (self_destructs (fst x))))))
    | TouchedDead k => crun_script db k (snd (cstep keccak db x (ODestructTouchedDead (iterate (touched (fst x))))))
    end.
  (** On the reference machine: the result, the calls made and the world; None as in [astep]. *)
  Fixpoint arun_script {A} (cs : N -> bool) (t : script A) (y : world * list world) : option (A * list op * (world * list world)) :=
    match t with
    | Ret a => Some (a, [], y)
    | Ask o k =>
      match astep keccak cs y o with
      | Some (v, y) => match arun_script cs (k v) y with Some (a, ops, y) => Some (a, o :: ops, y) | None => None end
      | None => None
      end
    | Suicides k =>
      let o := ODestructSuicides (iterate (w_suicides (fst y))) in
      match astep keccak cs y o with
      | Some (_, y) => match arun_script cs k y with Some (a, ops, y) => Some (a, o :: ops, y) | None => None end
      | None => None
      end
    | TouchedDead k =>
      let o := ODestructTouchedDead (iterate (w_touched (fst y))) in
      match astep keccak cs y o with
      | Some (_, y) => match arun_script cs k y with Some (a, ops, y) => Some (a, o :: ops, y) | None => None end
      | None => None
      end
    end.
End Semantics.
