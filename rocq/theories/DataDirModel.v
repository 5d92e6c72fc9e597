(** Model of db/silkworm/common/data_dir.cpp, db/silkworm/common/temp_dir.cpp and of open_env (db/silkworm/db/mdbx.cpp:20-92)
    with the flags libmdbx/mdbx.c++ makes of its arguments. POSIX; [cwd] is the working directory. *)
From stdpp Require Import gmap.
From Verif Require Import Base BaseFacts FsModel UtilModel.

(** "erigon", "chaindata", "nodes", "etl-temp", "mdbx.dat". *)
Definition k_erigon : bytes := [101; 114; 105; 103; 111; 110].
Definition k_chaindata : bytes := [99; 104; 97; 105; 110; 100; 97; 116; 97].
Definition k_nodes : bytes := [110; 111; 100; 101; 115].
Definition k_etl : bytes := [101; 116; 108; 45; 116; 101; 109; 112].
Definition k_data_file : bytes := [109; 100; 98; 120; 46; 100; 97; 116].

(** data_dir.hpp:25-58. *)
Record datadir := mkDataDir { dd_base : bytes; dd_chaindata : bytes; dd_nodes : bytes; dd_etl : bytes; dd_valid : bool }.
Definition paths_of (base_path : bytes) (valid : bool) : datadir :=
  mkDataDir (slashed base_path) (slashed (append (append base_path k_erigon) k_chaindata)) (slashed (append base_path k_nodes))
            (slashed (append base_path k_etl)) valid.
(** data_dir.cpp:23-50. [None]: an exception. *)
Definition data_directory (f : fsys) (cwd : loc) (base_path : bytes) (create : bool) : fsys * option datadir :=
  let base_path_ := slashed base_path in
  if negb create
  then (f, Some (paths_of base_path (exists_ f cwd base_path_ && is_directory f cwd base_path_)))
  else let '(f, r) := create_directories f cwd base_path_ in
       (f, match r with None => None | Some _ => Some (paths_of base_path (exists_ f cwd base_path_)) end).

(** data_dir.cpp:52-89. *)
Fixpoint base_of (tokens : list bytes) (n : nat) : bytes :=
  match n, tokens with S n, t :: tokens => t ++ [47] ++ base_of tokens n | _, _ => [] end.
Definition from_chaindata (f : fsys) (cwd : loc) (chaindata_path : bytes) : fsys * option datadir :=
  if negb (exists_ f cwd chaindata_path) || negb (is_directory f cwd chaindata_path) then (f, None)
  else match split (slashed chaindata_path) [47] with
       | None => (f, None)
       | Some tokens =>
         if (length tokens <=? 2)%nat then (f, None)
         else if negb (iequals (nth (length tokens - 1) tokens []) k_chaindata) || negb (iequals (nth (length tokens - 2) tokens []) k_erigon)
              then (f, None)
              else data_directory f cwd (base_of tokens (length tokens - 2)) false
       end.

(** data_dir.cpp:131-147. The result says whether it returned without an exception. *)
Definition create_tree (f : fsys) (cwd : loc) (d : datadir) : fsys * bool :=
  match create_directories f cwd (dd_chaindata d) with
  | (f, None) => (f, false)
  | (f, Some _) =>
    match create_directories f cwd (dd_nodes d) with
    | (f, None) => (f, false)
    | (f, Some _) =>
      match create_directories f cwd (dd_etl d) with
      | (f, None) => (f, false)
      | (f, Some _) => (f, is_directory f cwd (dd_chaindata d) && is_directory f cwd (dd_nodes d) && is_directory f cwd (dd_etl d))
      end
    end
  end.
(** data_dir.cpp:149-156. *)
Definition clear_etl_temp (f : fsys) (cwd : loc) (d : datadir) : fsys :=
  if exists_ f cwd (dd_etl d) && is_directory f cwd (dd_etl d) && negb (is_empty f cwd (dd_etl d))
  then match place f cwd (dd_etl d) with Some l => fold_left remove_all (children f l) f | None => f end
  else f.

(** *** Temporary directories *)
(** temp_dir.cpp:22-45: the draws are between 0 and 35. *)
Definition alnum (n : N) : N := if n <? 10 then 48 + n else 97 + (n - 10).
Definition random_string (draws : list N) : bytes := map alnum draws.
(** temp_dir.cpp:51-61: [rd i] are the ten draws of try i; [tdp] is fs::temp_directory_path(), which throws if it is no
    directory. *)
Fixpoint try_directories (f : fsys) (cwd : loc) (tdp : bytes) (rd : nat -> list N) (i : nat) (tries : nat) : fsys * option bytes :=
  match tries with
  | O => (f, None)
  | S tries =>
    let path := append tdp (random_string (rd i)) in
    match create_directory f cwd path with
    | (f, Some true) => (f, Some path)
    | (f, Some false) => try_directories f cwd tdp rd (S i) tries
    | (f, None) => (f, None)
    end
  end.
Definition create_temporary_directory (f : fsys) (cwd : loc) (tdp : bytes) (rd : nat -> list N) (max_tries : nat) : fsys * option bytes :=
  if is_directory f cwd tdp then try_directories f cwd tdp rd 0 max_tries else (f, None).
(** temp_dir.cpp:65. *)
Definition drop_temporary_directory (f : fsys) (cwd : loc) (path : bytes) : fsys :=
  match place f cwd path with Some l => remove_all f l | None => f end.

(** *** Environments *)
(** mdbx.hpp:41-50. *)
Record env_config := mkCfg { c_path : bytes; c_create : bool; c_readonly : bool; c_exclusive : bool; c_inmemory : bool; c_shared : bool;
                             c_max_tables : N; c_max_readers : N }.
(** libmdbx/mdbx.h:909-1232. *)
Definition NOSUBDIR : N := 0x4000.
Definition SAFE_NOSYNC : N := 0x10000.
Definition RDONLY : N := 0x20000.
Definition NOMETASYNC : N := 0x40000.
Definition WRITEMAP : N := 0x80000.
Definition NOTLS : N := 0x200000.
Definition EXCLUSIVE : N := 0x400000.
Definition NORDAHEAD : N := 0x800000.
Definition NOMEMINIT : N := 0x1000000.
Definition COALESCE : N := 0x2000000.
Definition LIFORECLAIM : N := 0x4000000.
Definition ACCEDE : N := 0x40000000.
Definition UTTERLY_NOSYNC : N := 0x110000.
Definition has (flags m : N) : bool := negb (N.land flags m =? 0).
(** libmdbx/mdbx.h++:1776-1834. *)
Inductive mode := readonly | write_file_io | write_mapped_io.
Inductive durability := robust_synchronous | half_synchronous_weak_last | lazy_weak_tail | whole_fragile.
Record operate_parameters := mkOp { op_mode : mode; op_durability : durability; op_lifo : bool; op_coalesce : bool; op_orphan_read : bool;
                                    op_nested : bool; op_exclusive : bool; op_no_readahead : bool; op_no_clear : bool }.
(** libmdbx/mdbx.c++:4462-4493. *)
Definition mode_from_flags (flags : N) : mode := if has flags RDONLY then readonly else if has flags WRITEMAP then write_mapped_io else write_file_io.
Definition durability_from_flags (flags : N) : durability :=
  if N.land flags UTTERLY_NOSYNC =? UTTERLY_NOSYNC then whole_fragile
  else if has flags SAFE_NOSYNC then lazy_weak_tail else if has flags NOMETASYNC then half_synchronous_weak_last else robust_synchronous.
(** libmdbx/mdbx.c++:4405-4460. *)
Definition make_flags (op : operate_parameters) (accede use_subdirectory : bool) : N :=
  let or_ (b : bool) (m flags : N) := if b then N.lor flags m else flags in
  let flags := match op_mode op with readonly => RDONLY | write_file_io => 0 | write_mapped_io => WRITEMAP end in
  let flags := or_ accede ACCEDE flags in
  let flags := or_ (negb use_subdirectory) NOSUBDIR flags in
  let flags := or_ (op_exclusive op) EXCLUSIVE flags in
  let flags := or_ (op_orphan_read op) NOTLS flags in
  let flags := or_ (op_no_readahead op) NORDAHEAD flags in
  let flags := or_ (op_no_clear op) NOMEMINIT flags in
  match op_mode op with
  | readonly => flags
  | _ =>
    let flags := if op_nested op then N.ldiff flags WRITEMAP else flags in
    let flags := or_ (op_coalesce op) COALESCE flags in
    let flags := or_ (op_lifo op) LIFORECLAIM flags in
    match op_durability op with
    | robust_synchronous => flags
    | half_synchronous_weak_last => N.lor flags NOMETASYNC
    | lazy_weak_tail => N.lor flags SAFE_NOSYNC
    | whole_fragile => N.lor flags UTTERLY_NOSYNC
    end
  end.
(** mdbx_env_open is called with these flags; the geometry is given to mdbx_env_set_geometry, [None] its defaults:
    upper limit, growth step, page size. *)
Record opened := mkOpened { e_path : bytes; e_flags : N; e_geometry : option (N * N * N); e_max_tables : N; e_max_readers : N }.
(** mdbx.cpp:50-70, before the conversion. *)
Definition config_flags (c : env_config) : N :=
  let flags := N.lor (N.lor NOTLS NORDAHEAD) COALESCE in
  let flags := if c_readonly c then N.lor flags RDONLY else flags in
  let flags := if c_inmemory c then N.lor flags NOMETASYNC else flags in
  let flags := if c_exclusive c then N.lor flags EXCLUSIVE else flags in
  if c_shared c then N.lor flags ACCEDE else flags.
(** mdbx.cpp:82-87 and libmdbx/mdbx.c++:4481-4493; op.reclaiming keeps its initial value. *)
Definition op_of (flags : N) : operate_parameters :=
  mkOp (mode_from_flags flags) (durability_from_flags flags) false false (N.land flags (N.lor NOTLS EXCLUSIVE) =? NOTLS)
       (negb (has flags (N.lor WRITEMAP RDONLY))) (has flags EXCLUSIVE) (has flags NORDAHEAD) (has flags NOMEMINIT).
(** mdbx.cpp:20-92; what mdbx_env_open then does is not modelled. *)
Definition open_env (f : fsys) (cwd : loc) (c : env_config) : fsys * option opened :=
  match c_path c with
  | [] => (f, None)
  | _ =>
    let db_path := slashed (c_path c) in
    let db_file := append db_path k_data_file in
    let located : fsys * bool :=
      if negb (c_create c)
      then (f, negb (negb (exists_ f cwd db_path) || negb (is_directory f cwd db_path) || is_empty f cwd db_path || negb (exists_ f cwd db_file)
                     || negb (is_regular_file f cwd db_file) || (file_size f cwd db_file =? 0)))
      else if negb (exists_ f cwd db_path)
           then match create_directories f cwd db_path with (f, Some made) => (f, made) | (f, None) => (f, false) end
           else (f, negb (exists_ f cwd db_file)) in
    let '(f, ok) := located in
    if negb ok then (f, None)
    else if c_exclusive c && c_shared c then (f, None)
    else if c_create c && c_shared c then (f, None)
    else if c_create c && c_readonly c then (f, None)
    else let geometry := if c_shared c then None
                         else Some (if c_inmemory c then 64 * 2 ^ 20 else 2 * 2 ^ 40, if c_inmemory c then 2 * 2 ^ 20 else 2 * 2 ^ 30, 4 * 2 ^ 10) in
         (f, Some (mkOpened db_path (make_flags (op_of (config_flags c)) (c_shared c) false) geometry (c_max_tables c) (c_max_readers c)))
  end.
