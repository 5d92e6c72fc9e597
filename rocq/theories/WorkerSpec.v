(** Specification of the worker: notions its properties are stated with. *)
From Verif Require Import Base WorkerModel.

(** The thread has reached work(). *)
Definition working (t : tpc) : Prop := match t with T_work _ _ | T_check | T_sleep | T_test => True | _ => False end.
(** The thread is in wait_for_kick. *)
Definition waiting (t : tpc) : Prop := match t with T_check | T_sleep => True | _ => False end.
(** wait_for_kick has just answered b. *)
Definition answered (t : tpc) (b : bool) : Prop := exists n, t = T_work (Some b) n.
(** A state on the way of a run. *)
Definition passes (K : nat) (s : sys) (ws : list who) (s' : sys) (P : sys -> Prop) : Prop :=
  exists ws1 ws2 s1, ws = ws1 ++ ws2 /\ run K s ws1 s1 /\ run K s1 ws2 s' /\ P s1.
(** Whatever happens from here on. *)
Definition forever (K : nat) (s : sys) (P : sys -> Prop) : Prop := forall ws s', run K s ws s' -> P s'.
(** Whatever the thread does, if the owner makes no further call. *)
Definition left_alone (K : nat) (s : sys) (P : sys -> Prop) : Prop := forall ws s', Forall (fun w => w = Thread) ws -> run K s ws s' -> P s'.
