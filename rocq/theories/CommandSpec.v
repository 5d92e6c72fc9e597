(** What the commands that run a stage have to do with the database. *)
From Verif Require Import Base DbTable DbModel DbSpec.

(** The database after the first transaction of a command with --full. *)
Definition cleared (tables : list tbl) (key : bytes) (d d1 : database) : Prop :=
  wf_db d1 /\ get_stage_progress d1 key = Done 0 /\ (forall t, In t tables -> d1 t = []) /\ (forall t, ~ In t tables -> t <> kSyncStageProgress -> d1 t = d t)
  /\ (forall other, other <> key -> get_stage_progress d1 other = get_stage_progress d other).
(** The tables of the hashed state. *)
Definition hashed_tables : list tbl := [kHashedAccounts; kHashedStorage; kContractCode].
