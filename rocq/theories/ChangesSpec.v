(** What the commands that execute blocks again have to report. *)
From stdpp Require Import gmap.
From Verif Require Import Base DbModel ChangesModel.

(** Accounts that another client records although nothing changes. *)
Definition phantom (a : N) : Prop :=
  a = 0x000000000000000000636f6e736f6c652e6c6f67 \/ a = 0x2386f26fc10000b4e16d0168e52d35cacd2c6185 \/ a = 0x5a719cf3e02c17c876f6d294adb5cb7c6eb47e2f.
(** The change sets disagree about an account, other than by a phantom being recorded. *)
Definition disagree (recorded calculated : gmap N bytes) (a : N) : Prop := recorded !! a <> calculated !! a /\ ~ (phantom a /\ calculated !! a = None).
(** The reports about a block whose change sets are given: [recorded] in the database, [calculated] by executing it. *)
Definition expected (recorded calculated : gmap N bytes) (recorded_slots calculated_slots : gmap (N * N * N) bytes) (r : change_report) : Prop :=
  match r with
  | FailedBlock _ => False
  | IsMissing _ a => is_Some (recorded !! a) /\ calculated !! a = None /\ ~ phantom a
  | ValueMismatch _ a v w => calculated !! a = Some v /\ recorded !! a = Some w /\ v <> w
  | NotInDb _ a => is_Some (calculated !! a) /\ recorded !! a = None
  | AccountMismatch _ => exists a, disagree recorded calculated a
  | StorageMismatch _ => recorded_slots <> calculated_slots
  end.
Definition about (r : change_report) : N :=
  match r with FailedBlock n => n | IsMissing n _ => n | ValueMismatch n _ _ _ => n | NotInDb n _ => n | AccountMismatch n => n | StorageMismatch n => n end.

(** The sum of [f] over the blocks from [a] up to but without [b]. *)
Definition sum_over (f : N -> N) (a b : N) : N := fold_right N.add 0 (map (fun i => f (a + N.of_nat i)) (seq 0 (N.to_nat (b - a)))).
(** The blocks a row at [n] is about: the 50000 up to and with [n], as far as they are scanned. *)
Definition row_begin (from n : N) : N := N.max from (n + 1 - 50000).
