(** Model of the database tool: cmd/dbtool.cpp (clear, freelist, scan, compact, copy), and of the walks of
    db/silkworm/db/mdbx.cpp. An environment is its named tables; a failed command returns -1 with what was committed before.
    Left out: opening the environments (their files are there unless said otherwise), the progress bar, the size of the disk,
    termination by a signal, tables of more than 2^64 records. *)
From stdpp Require Import gmap.
From Verif Require Import Base BaseFacts DbTable DbModel HashStateModel.

(** A table: MDBX flags and records; MDBX_DUPSORT = 4. *)
Record tbl := mkTbl { t_flags : N; t_rows : table }.
Definition dupsort (t : tbl) : bool := N.testbit (t_flags t) 2.
Definition env : Type := bytes -> option tbl.
Definition set_table (e : env) (n : bytes) (t : option tbl) : env := fun m => if bytes_eqb m n then t else e m.

(** *** Walks *)
(** mdbx.cpp:105-117. The cursor is the rest of the table, [[]] at its end; [data] is read once, before the loop. [func] may
    change [s]. The result is the number of calls that said to go on, and [s]. *)
Fixpoint each_loop {S} (func : S -> entry -> bool * S) (data : entry) (cursor : table) (s : S) : N * S :=
  match cursor with
  | [] => (0, s)
  | _ :: rest => match func s data with (true, s) => let '(n, s) := each_loop func data rest s in (n + 1, s) | (false, s) => (0, s) end
  end.
Definition for_each {S} (cursor : table) (func : S -> entry -> bool * S) (s : S) : N * S :=
  match cursor with [] => (0, s) | data :: _ => each_loop func data cursor s end.
(** mdbx.cpp:119-133. `iterations` is a size_t; [None]: still running after [fuel] rounds. *)
Fixpoint count_loop {S} (fuel : nat) (func : S -> entry -> bool * S) (data : entry) (cursor : table) (iterations : N) (s : S) : option (N * S) :=
  match fuel with
  | O => None
  | Datatypes.S fuel =>
    if negb (iterations =? 0) || match cursor with [] => false | _ => true end
    then match func s data with
         | (true, s) => match count_loop fuel func data (tl cursor) ((iterations + 2 ^ 64 - 1) mod 2 ^ 64) s with Some (n, s) => Some (n + 1, s) | None => None end
         | (false, s) => Some (0, s)
         end
    else Some (0, s)
  end.
Definition for_count {S} (fuel : nat) (cursor : table) (func : S -> entry -> bool * S) (iterations : N) (s : S) : option (N * S) :=
  match cursor with [] => Some (0, s) | data :: _ => count_loop fuel func data cursor iterations s end.

(** *** freelist *)
(** Little-endian numbers at the start of a value. *)
Fixpoint le_to_N (b : bytes) : N := match b with [] => 0 | x :: r => x + 256 * le_to_N r end.
Record free_info := mkFree { f_pages : N; f_size : N; f_entries : list (N * N * N) }.
(** dbtool.cpp:248-270. A record of the free table is the id of a transaction (8 bytes) with a list of pages led by its length
    (4 bytes). *)
Definition collect_free (page_size : N) (r : free_info) (data : entry) : bool * free_info :=
  let pages := le_to_N (firstn 4 (snd data)) in
  let size := (pages * page_size) mod 2 ^ 64 in
  (true, mkFree ((f_pages r + pages) mod 2 ^ 64) ((f_size r + size) mod 2 ^ 64) (f_entries r ++ [(le_to_N (firstn 8 (fst data)), pages, size)])).
Definition get_free_info (page_size : N) (free : table) : free_info := snd (for_each free (collect_free page_size) (mkFree 0 0 [])).

(** *** scan: dbtool.cpp:353-368 *)
Fixpoint scan (t : table) (key_size data_size : N) : N * N :=
  match t with [] => (key_size, data_size) | e :: r => scan r ((key_size + blen (fst e)) mod 2 ^ 64) ((data_size + blen (snd e)) mod 2 ^ 64) end.

(** *** clear *)
(** dbtool.cpp:209, the pattern "^([yY])?([nN])?$": [Some true] if the second group is not empty *)
Definition is_y (c : N) : bool := (c =? 121) || (c =? 89).
Definition is_n (c : N) : bool := (c =? 110) || (c =? 78).
Definition match_answer (w : bytes) : option bool :=
  match w with
  | [] => Some false
  | [c] => if is_y c then Some false else if is_n c then Some true else None
  | [c; d] => if is_y c && is_n d then Some true else None
  | _ => None
  end.
(** dbtool.cpp:212-223. [input]: the words on standard input. At its end `cin >> user_input` leaves the string as it is, and
    clear() lets the loop go on; [None]: it never ends. [Some (true, _)]: skip. *)
Fixpoint ask (user_input : bytes) (input : list bytes) : option (bool * list bytes) :=
  match input with
  | [] => match match_answer user_input with Some skip => Some (skip, []) | None => None end
  | w :: rest => match match_answer w with Some skip => Some (skip, rest) | None => ask w rest end
  end.
(** dbtool.cpp:184-238; one transaction, committed at the end *)
Definition empty_rows (t : tbl) : bool := match t_rows t with [] => true | _ => false end.
Fixpoint do_clear (e : env) (names : list bytes) (drop yes : bool) (input : list bytes) : option env :=
  match names with
  | [] => Some e
  | n :: names =>
    match e n with
    | None => do_clear e names drop yes input
    | Some t =>
      if empty_rows t && negb drop then do_clear e names drop yes input
      else
        match (if yes then Some (false, input) else ask [] input) with
        | None => None
        | Some (true, input) => do_clear e names drop yes input
        | Some (false, input) => do_clear (set_table e n (if drop then None else Some (mkTbl (t_flags t) []))) names drop yes input
        end
    end
  end.

(** *** compact *)
(** The three files: the data file of the database, the same name with ".bak", the data file in the working directory (which
    main has found to be absent, dbtool.cpp:861-868). The content of a file is the database in it. *)
Inductive place := Source | Backup | Target.
Definition place_eqb (p q : place) : bool := match p, q with Source, Source | Backup, Backup | Target, Target => true | _, _ => false end.
Section Compact.
  Context {A : Type}.
  Definition files : Type := place -> option A.
  Definition set_file (f : files) (p : place) (c : option A) : files := fun q => if place_eqb q p then c else f q.
  (** std::filesystem::rename(from, to): throws unless [from] exists *)
  Definition rename (f : files) (from to : place) : option files :=
    match f from with Some c => Some (set_file (set_file f from None) to (Some c)) | None => None end.
  (** dbtool.cpp:587-636, with a subdirectory (the path is a directory, so libmdbx drops MDBX_NOSUBDIR, mdbx.c:15640-15643). env.copy writes a compacted copy of the
      whole content. The result is the list of the states of the files, latest first, and whether the command succeeds. *)
  Definition do_compact (f : files) (replace nobak : bool) : list files * bool :=
    let f1 := set_file f Target (f Source) in
    if negb replace then ([f1; f], true)
    else
      let backed := if nobak then Some [f1; f]
                    else let f2 := set_file f1 Backup None in match rename f2 Source Backup with Some f3 => Some [f3; f2; f1; f] | None => None end in
      match backed with
      | None => ([f1; f], false)
      | Some l =>
        let f3 := hd f1 l in
        let f4 := set_file f3 Source None in
        match rename f4 Source Target with Some f5 => (f5 :: f4 :: l, true) | None => (f4 :: l, false) end
      end.
End Compact.

(** *** copy *)
Record copy_options := mkCopy { c_create : bool; c_noempty : bool; c_upsert : bool; c_tables : list bytes; c_xtables : list bytes; c_commitsize : N }.
(** The target: what is committed (the latest first), the transaction ([None] once it is committed for good), bytesWritten. *)
Record copying := mkCopying { g_commits : list env; g_txn : option env; g_written : N }.
(** cursor::put with MDBX_APPENDDUP: the value has to be greater than those of the key (mdbx.c:18195) *)
Definition append_dup (t : table) (k v : bytes) : out table :=
  if existsb (fun e => bytes_eqb (fst e) k && negb (lex_lt (snd e) v)) t then Throws else Done (put_dup t k v).
(** dbtool.cpp:742-746 *)
Definition put_with (upsert_flag dup : bool) (t : table) (k v : bytes) : out table :=
  if upsert_flag then Done (if dup then put_dup t k v else upsert t k v) else if dup then append_dup t k v else append t k v.
Definition member (n : bytes) (l : list bytes) : bool := existsb (bytes_eqb n) l.
Section Copy.
  Variable o : copy_options.
  (** dbtool.cpp:748-772: the records of one table, into the table [n] of the transaction, which has flags [fl]. An exception
      leaves what was committed. *)
  Fixpoint copy_rows (n : bytes) (fl : N) (dup : bool) (rows : table) (g : copying) : copying * bool :=
    match rows with
    | [] => (g, true)
    | e :: rest =>
      match g_txn g with
      | None => (g, false)
      | Some x =>
        match put_with (c_upsert o) dup (match x n with Some t => t_rows t | None => [] end) (fst e) (snd e) with
        | Done t =>
          let x := set_table x n (Some (mkTbl fl t)) in
          let w := (g_written g + blen (fst e) + blen (snd e)) mod 2 ^ 64 in
          copy_rows n fl dup rest (if c_commitsize o <? w then mkCopying (x :: g_commits g) (Some x) 0 else mkCopying (g_commits g) (Some x) w)
        | _ => (g, false)
        end
      end
    end.
  (** dbtool.cpp:673-694 *)
  Definition skipped (n : bytes) (t : tbl) : bool :=
    (match c_tables o with [] => false | l => negb (member n l) end) || member n (c_xtables o) || (empty_rows t && c_noempty o).
  (** dbtool.cpp:734-783: one table. A table that wrote something ends with a commit, and the transaction is over. *)
  Definition copy_table (n : bytes) (t : tbl) (g : copying) : copying * bool :=
    match copy_rows n (t_flags t) (dupsort t) (t_rows t) g with
    | (g, false) => (g, false)
    | (g, true) => (if g_written g =? 0 then g else mkCopying (match g_txn g with Some x => x :: g_commits g | None => g_commits g end) None (g_written g), true)
    end.
  (** dbtool.cpp:696-733. [tgt]: the tables of the target at the start. Handling a table through a transaction that is over
      throws (mdbx.c:22783). *)
  Definition visit_table (tgt : env) (n : bytes) (t : tbl) (g : copying) : copying * bool :=
    if skipped n t then (g, true)
    else
      match tgt n with
      | Some t' =>
        if negb (empty_rows t') && negb (c_upsert o) then (g, true)
        else match g_txn g with
             | None => (g, false)
             | Some _ => if negb (t_flags t =? t_flags t') then (g, true) else copy_table n t g
             end
      | None =>
        match g_txn g with
        | None => (g, false)
        | Some x => copy_table n t (mkCopying (g_commits g) (Some (set_table x n (Some (mkTbl (t_flags t) [])))) (g_written g))
        end
      end.
  (** dbtool.cpp:667-783: the loop *)
  Fixpoint copy_tables (tgt : env) (src : list (bytes * tbl)) (g : copying) : copying * bool :=
    match src with
    | [] => (g, true)
    | (n, t) :: rest => match visit_table tgt n t g with (g, true) => copy_tables tgt rest g | (g, false) => (g, false) end
    end.
  (** dbtool.cpp:871-895, 640-666, 785-792. [tgt]: the database in the target directory, if its data file is there. EnvConfig's
      `create` is left false, so that open_env throws when it is not. The result is the commits, the latest first, and whether the
      command succeeds. *)
  Definition do_copy (src : list (bytes * tbl)) (tgt : option env) : list env * bool :=
    match tgt with
    | Some e =>
      if c_create o then ([], false)
      else match src with [] => ([], false) | _ => let '(g, ok) := copy_tables e src (mkCopying [] (Some e) 0) in (g_commits g, ok) end
    | None => ([], false)
    end.
End Copy.
