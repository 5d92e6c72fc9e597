(** A file system without symbolic links, hard links or permissions, and the functions of std::filesystem the code calls.
    A place is the list of names from the root; a path is a string. Modelled on POSIX path resolution and libstdc++. *)
From stdpp Require Import gmap.
From Verif Require Import Base BaseFacts.

Inductive node := Dir | File (content : bytes).
Notation loc := (list bytes).
Notation fsys := (gmap (list bytes) node).

(** The pieces of a path between its separators, the empty ones included: "a/" is "a" and "". *)
Fixpoint comps (p : bytes) : list bytes :=
  match p with
  | [] => [[]]
  | c :: t => if c =? 47 then [] :: comps t else match comps t with w :: r => (c :: w) :: r | [] => [[c]] end
  end.
(** One piece of a path: nothing and "." stay, ".." goes up, a name goes down. *)
Definition step (at_ : loc) (c : bytes) : loc :=
  match c with [] | [46] => at_ | [46; 46] => removelast at_ | _ => at_ ++ [c] end.
Definition start (cwd : loc) (p : bytes) : loc := match p with 47 :: _ => [] | _ => cwd end.
(** Where a path leads: each piece is looked up in a directory. *)
Fixpoint walk (f : fsys) (at_ : loc) (cs : list bytes) : option loc :=
  match cs with
  | [] => Some at_
  | c :: cs => match f !! at_ with Some Dir => walk f (step at_ c) cs | _ => None end
  end.
Definition place (f : fsys) (cwd : loc) (p : bytes) : option loc :=
  match p with [] => None | _ => walk f (start cwd p) (comps p) end.
(** fs::status. *)
Definition status (f : fsys) (cwd : loc) (p : bytes) : option node := match place f cwd p with Some l => f !! l | None => None end.
Definition exists_ (f : fsys) (cwd : loc) (p : bytes) : bool := match status f cwd p with Some _ => true | None => false end.
Definition is_directory (f : fsys) (cwd : loc) (p : bytes) : bool := match status f cwd p with Some Dir => true | _ => false end.
Definition is_regular_file (f : fsys) (cwd : loc) (p : bytes) : bool := match status f cwd p with Some (File _) => true | _ => false end.
Definition file_size (f : fsys) (cwd : loc) (p : bytes) : N := match status f cwd p with Some (File d) => blen d | _ => 0 end.
(** fs::directory_iterator: the entries of a directory. *)
Definition is_child (l q : loc) : bool := bool_decide (q <> [] /\ removelast q = l).
Definition children (f : fsys) (l : loc) : list loc := List.filter (is_child l) (map fst (map_to_list f)).
Definition is_empty (f : fsys) (cwd : loc) (p : bytes) : bool :=
  match place f cwd p with Some l => match children f l with [] => true | _ => false end | None => false end.
(** fs::remove_all. *)
Definition remove_all (f : fsys) (l : loc) : fsys := base.filter (fun e => ~ l `prefix_of` e.1) f.
(** fs::create_directories: the result says whether something was made, [None] is an exception; what was made stays made. *)
Fixpoint mkdirs (f : fsys) (at_ : loc) (cs : list bytes) (made : bool) : fsys * option bool :=
  match f !! at_ with
  | Some Dir =>
    match cs with
    | [] => (f, Some made)
    | c :: cs => match f !! step at_ c with
                 | None => mkdirs (<[step at_ c := Dir]> f) (step at_ c) cs true
                 | Some _ => mkdirs f (step at_ c) cs made
                 end
    end
  | _ => (f, None)
  end.
Definition create_directories (f : fsys) (cwd : loc) (p : bytes) : fsys * option bool :=
  match p with [] => (f, None) | _ => mkdirs f (start cwd p) (comps p) false end.
(** fs::create_directory: false if it is there already, an exception if a file is in its place or its parent is no directory. *)
Definition create_directory (f : fsys) (cwd : loc) (p : bytes) : fsys * option bool :=
  match place f cwd p with
  | None => (f, None)
  | Some l => match f !! l with
              | Some Dir => (f, Some false)
              | Some (File _) => (f, None)
              | None => match f !! removelast l with Some Dir => (<[l := Dir]> f, Some true) | _ => (f, None) end
              end
  end.

(** fs::path: has_filename, operator/ with a relative right side, += preferred_separator where it is missing. *)
Definition has_filename (p : bytes) : bool := match p with [] => false | _ => negb (last p 0 =? 47) end.
Definition slashed (p : bytes) : bytes := if has_filename p then p ++ [47] else p.
Definition append (p name : bytes) : bytes := slashed p ++ name.
