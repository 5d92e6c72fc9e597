(** What is said about files and directories. *)
From stdpp Require Import gmap.
From Verif Require Import Base FsModel DataDirModel.

(** [q] is below the place [l]. *)
Definition inside (l q : loc) : Prop := exists c r, q = l ++ c :: r.
(** Nothing that was there is gone or changed. *)
Definition kept (f f' : fsys) : Prop := forall q n, f !! q = Some n -> f' !! q = Some n.
(** What is new are directories the path [p] goes through on its way. *)
Definition on_the_way (cwd : loc) (p : bytes) (q : loc) : Prop :=
  exists a b, comps p = a ++ b /\ q = fold_left step a (start cwd p).
Definition new_only (f f' : fsys) (w : loc -> Prop) : Prop := forall q n, f' !! q = Some n -> f !! q = Some n \/ (n = Dir /\ w q).
(** A file stands in the way of [p]. *)
Definition blocked (f : fsys) (cwd : loc) (p : bytes) : Prop := exists q d, on_the_way cwd p q /\ f !! q = Some (File d).
(** A string ending with a separator. *)
Definition ends_with_slash (b : bytes) : Prop := exists b0, b = b0 ++ [47].

(** The root is a directory and what is there is in a directory. *)
Definition fs_ok (f : fsys) : Prop := f !! [] = Some Dir /\ forall l c n, f !! (l ++ [c]) = Some n -> f !! l = Some Dir.
(** [d] was made by a constructor. *)
Definition made (d : datadir) : Prop := exists g cwd b c g', data_directory g cwd b c = (g', Some d) \/ from_chaindata g cwd b = (g', Some d).
(** Ten draws between 0 and 35 each time. *)
Definition draws_ok (rd : nat -> list N) : Prop := forall i, length (rd i) = 10%nat /\ Forall (fun n => n < 36) (rd i).
(** The data file of a configuration, and options that do not contradict each other. *)
Definition data_file (c : env_config) : bytes := append (slashed (c_path c)) k_data_file.
Definition no_conflict (c : env_config) : Prop :=
  ~ (c_exclusive c = true /\ c_shared c = true) /\ ~ (c_create c = true /\ c_shared c = true) /\ ~ (c_create c = true /\ c_readonly c = true).
