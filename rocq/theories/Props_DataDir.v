(** Data directories, temporary directories and the opening of environments: C90, C91, C92. *)
From stdpp Require Import gmap.
From Verif Require Import Base BaseFacts FsModel FsProofs UtilModel DataDirModel DataDirSpec DataDirProofs DataDirLemmas.

(** *** C90: data directories *)
(** Every data directory has the same layout below its base. *)
Theorem C90_layout : forall d, made d -> exists b, dd_base d = b /\ dd_chaindata d = b ++ k_erigon ++ [47] ++ k_chaindata ++ [47]
  /\ dd_nodes d = b ++ k_nodes ++ [47] /\ dd_etl d = b ++ k_etl ++ [47] /\ (b = [] \/ ends_with_slash b).
Proof. exact layout. Qed.
Print Assumptions C90_layout.

(** From the path of a chaindata directory below a base comes the data directory of that base. *)
Theorem C90_from_chaindata_partial : forall f cwd b p, ends_with_slash b ->
  (p = b ++ k_erigon ++ [47] ++ k_chaindata \/ p = b ++ k_erigon ++ [47] ++ k_chaindata ++ [47]) -> status f cwd p = Some Dir ->
  exists d, from_chaindata f cwd p = (f, Some d) /\ dd_base d = b /\ dd_chaindata d = b ++ k_erigon ++ [47] ++ k_chaindata ++ [47]
    /\ dd_nodes d = b ++ k_nodes ++ [47] /\ dd_etl d = b ++ k_etl ++ [47] /\ dd_valid d = true.
Proof. exact from_chaindata_ok. Qed.
Print Assumptions C90_from_chaindata_partial.

(** What is accepted is the path of a directory whose last two names are the right ones, up to case; nothing is changed. *)
Theorem C90_accepts : forall f cwd p f' d, from_chaindata f cwd p = (f', Some d) ->
  f' = f /\ status f cwd p = Some Dir /\ exists b e c, slashed p = b ++ e ++ [47] ++ c ++ [47] /\ iequals e k_erigon = true /\ iequals c k_chaindata = true
    /\ dd_base d = b /\ dd_chaindata d = b ++ k_erigon ++ [47] ++ k_chaindata ++ [47].
Proof. exact chaindata_accepts. Qed.
Print Assumptions C90_accepts.

(** The chaindata directory of a data directory leads back to it. *)
Theorem C90_round_trip : forall f cwd d, made d -> dd_base d <> [] -> status f cwd (dd_chaindata d) = Some Dir ->
  exists d', from_chaindata f cwd (dd_chaindata d) = (f, Some d') /\ dd_base d' = dd_base d /\ dd_chaindata d' = dd_chaindata d /\ dd_nodes d' = dd_nodes d
    /\ dd_etl d' = dd_etl d /\ dd_valid d' = true.
Proof. exact round_trip. Qed.
Print Assumptions C90_round_trip.

(** Another spelling of the names is accepted, and then leads to another directory. *)
Theorem C90_other_case_refuted : exists f cwd p d f', fs_ok f /\ from_chaindata f cwd p = (f, Some d) /\ status f cwd p = Some Dir /\ status f cwd (dd_chaindata d) = None
  /\ create_tree f cwd d = (f', true) /\ place f' cwd (dd_chaindata d) <> place f' cwd p.
Proof. exact other_case. Qed.
Print Assumptions C90_other_case_refuted.

(** A chaindata directory named from its base directory is refused. *)
Theorem C90_relative_refuted : exists f cwd p, fs_ok f /\ f !! cwd = Some Dir /\ p = k_erigon ++ [47] ++ k_chaindata /\ status f cwd p = Some Dir
  /\ from_chaindata f cwd p = (f, None).
Proof. exact relative_case. Qed.
Print Assumptions C90_relative_refuted.

(** So is one with a doubled separator. *)
Theorem C90_doubled_refuted : exists f cwd p, fs_ok f /\ f !! cwd = Some Dir /\ p = [47] ++ k_d ++ [47] ++ k_erigon ++ [47; 47] ++ k_chaindata /\ status f cwd p = Some Dir
  /\ from_chaindata f cwd p = (f, None).
Proof. exact doubled_case. Qed.
Print Assumptions C90_doubled_refuted.

(** Without creation nothing is made, and it is valid exactly if its base is a directory. *)
Theorem C90_validity : forall f cwd b f' d, data_directory f cwd b false = (f', d) ->
  f' = f /\ exists d0, d = Some d0 /\ (dd_valid d0 = true <-> status f cwd (dd_base d0) = Some Dir).
Proof. exact validity. Qed.
Print Assumptions C90_validity.

(** With creation the base is there afterwards, unless a file stands in the way; nothing else changes. *)
Theorem C90_creation : forall f cwd b f' d, fs_ok f -> f !! cwd = Some Dir -> data_directory f cwd b true = (f', d) ->
  kept f f' /\ new_only f f' (on_the_way cwd (slashed b)) /\
  match d with Some d => dd_valid d = true /\ status f' cwd (dd_base d) = Some Dir | None => b = [] \/ blocked f cwd (slashed b) end.
Proof. exact creation. Qed.
Print Assumptions C90_creation.

(** create_tree makes the three directories unless a file stands in the way; what was there stays as it was. *)
Theorem C90_create_tree : forall f cwd d f' ok, fs_ok f -> f !! cwd = Some Dir -> made d -> create_tree f cwd d = (f', ok) ->
  kept f f' /\ new_only f f' (fun q => on_the_way cwd (dd_chaindata d) q \/ on_the_way cwd (dd_nodes d) q \/ on_the_way cwd (dd_etl d) q) /\
  (if ok then status f' cwd (dd_chaindata d) = Some Dir /\ status f' cwd (dd_nodes d) = Some Dir /\ status f' cwd (dd_etl d) = Some Dir
   else blocked f cwd (dd_chaindata d) \/ blocked f cwd (dd_nodes d) \/ blocked f cwd (dd_etl d)).
Proof. exact tree. Qed.
Print Assumptions C90_create_tree.

(** clear_etl_temp removes everything inside that directory and nothing else. *)
Theorem C90_clear : forall f cwd d l, fs_ok f -> place f cwd (dd_etl d) = Some l -> f !! l = Some Dir ->
  forall q, (inside l q -> clear_etl_temp f cwd d !! q = None) /\ (~ inside l q -> clear_etl_temp f cwd d !! q = f !! q).
Proof. exact clear_exact. Qed.
Print Assumptions C90_clear.
Theorem C90_clear_nothing : forall f cwd d, status f cwd (dd_etl d) <> Some Dir -> clear_etl_temp f cwd d = f.
Proof. exact clear_not_there. Qed.
Print Assumptions C90_clear_nothing.
(** In particular no chain data. *)
Theorem C90_clear_keeps_chaindata : forall f cwd d l q, made d -> place f cwd (dd_chaindata d) = Some l -> q = l \/ inside l q ->
  clear_etl_temp f cwd d !! q = f !! q.
Proof. exact clear_keeps. Qed.
Print Assumptions C90_clear_keeps_chaindata.

Example C90_case : let d := paths_of (p_slash [k_d]) true in
  fs_ok w_fs /\ from_chaindata w_fs [] (p_slash [k_d; k_erigon; k_chaindata]) = (w_fs, Some d) /\ made d
  /\ place w_fs [] (dd_etl d) = Some [k_d; k_etl] /\ place w_fs [] (dd_chaindata d) = Some [k_d; k_erigon; k_chaindata]
  /\ w_fs !! [k_d; k_etl; [50]; [49]] = Some (File []) /\ clear_etl_temp w_fs [] d !! [k_d; k_etl; [50]; [49]] = None
  /\ snd (create_tree w_fs [] d) = true /\ snd (create_tree w_fs [] (paths_of (p_slash [[102]]) false)) = false
  /\ snd (data_directory w_fs [k_d] [110] true) = Some (paths_of [110] true).
Proof.
  intros d. assert (A : from_chaindata w_fs [] (p_slash [k_d; k_erigon; k_chaindata]) = (w_fs, Some d)).
  { apply pair_is; [apply from_chaindata_same|vm_compute; reflexivity]. }
  split; [exact w_fs_ok|]. split; [exact A|]. split; [exists w_fs, [], (p_slash [k_d; k_erigon; k_chaindata]), false, w_fs; right; exact A|].
  split; [vm_compute; reflexivity|]. split; [vm_compute; reflexivity|]. split; [vm_compute; reflexivity|]. split; [vm_compute; reflexivity|].
  split; [vm_compute; reflexivity|]. split; vm_compute; reflexivity.
Qed.

(** *** C91: temporary directories *)
(** The directory was not there before, it is the only change, and its name is ten digits or letters. *)
Theorem C91_fresh : forall f cwd tdp rd tries f' path, draws_ok rd -> create_temporary_directory f cwd tdp rd tries = (f', Some path) ->
  exists l, place f cwd path = Some l /\ f !! l = None /\ status f cwd path = None /\ status f' cwd path = Some Dir /\ f' = <[l := Dir]> f
    /\ exists name, length name = 10%nat /\ Forall (fun c => 48 <= c <= 57 \/ 97 <= c <= 122) name /\ path = append tdp name.
Proof. exact temp_fresh. Qed.
Print Assumptions C91_fresh.

(** Whatever was done inside it, its end restores the file system of before. *)
Theorem C91_dropped : forall f cwd tdp rd tries f' path g l, fs_ok f -> draws_ok rd -> create_temporary_directory f cwd tdp rd tries = (f', Some path) ->
  place f' cwd path = Some l -> (forall q, ~ (q = l \/ inside l q) -> g !! q = f' !! q) -> drop_temporary_directory g cwd path = f.
Proof. exact temp_dropped. Qed.
Print Assumptions C91_dropped.

(** It fails, without a trace, only if there is no place for temporary files, a file has a name drawn, or all names drawn are taken. *)
Theorem C91_fails : forall f cwd tdp rd tries f', draws_ok rd -> create_temporary_directory f cwd tdp rd tries = (f', None) ->
  f' = f /\ (status f cwd tdp <> Some Dir
             \/ (exists j d, (j < tries)%nat /\ status f cwd (append tdp (random_string (rd j))) = Some (File d))
             \/ forall j, (j < tries)%nat -> status f cwd (append tdp (random_string (rd j))) = Some Dir).
Proof. exact temp_fails. Qed.
Print Assumptions C91_fails.

Example C91_case : let rd := fun i : nat => repeat (N.of_nat i mod 36) 10 in let f := <[[k_d; repeat 48 10] := Dir]> w_fs in
  draws_ok rd /\ snd (create_temporary_directory f [] (p_slash [k_d]) rd 1) = None
  /\ snd (create_temporary_directory f [] (p_slash [k_d]) rd 2) = Some (p_slash [k_d; repeat 49 10]) /\ f !! [k_d; repeat 49 10] = None
  /\ fst (create_temporary_directory f [] (p_slash [k_d]) rd 2) !! [k_d; repeat 49 10] = Some Dir.
Proof.
  split; [intros i; split; [reflexivity|]; repeat constructor; apply N.mod_lt; discriminate|].
  split; [vm_compute; reflexivity|]. split; [vm_compute; reflexivity|]. split; vm_compute; reflexivity.
Qed.

(** *** C92: opening an environment *)
(** Without create nothing is changed; it is opened exactly if there is a data file that is not empty and no options conflict. *)
Theorem C92_existing : forall f cwd c f' r, c_create c = false -> open_env f cwd c = (f', r) ->
  f' = f /\ (r <> None <-> c_path c <> [] /\ (exists data, status f cwd (data_file c) = Some (File data) /\ data <> []) /\ no_conflict c).
Proof. exact open_existing. Qed.
Print Assumptions C92_existing.

(** With create it is opened exactly if there is no data file, no file in the way and no options conflict; nothing is
    overwritten, only directories on the way are made. *)
Theorem C92_create : forall f cwd c f' r, fs_ok f -> f !! cwd = Some Dir -> c_create c = true -> open_env f cwd c = (f', r) ->
  kept f f' /\ new_only f f' (on_the_way cwd (slashed (c_path c))) /\
  (r <> None <-> c_path c <> [] /\ ~ blocked f cwd (slashed (c_path c)) /\ status f cwd (data_file c) = None /\ no_conflict c) /\
  (r <> None -> status f' cwd (slashed (c_path c)) = Some Dir).
Proof. exact open_new. Qed.
Print Assumptions C92_create.

(** The library is asked for what the configuration says. *)
Theorem C92_flags_partial : forall f cwd c f' o, open_env f cwd c = (f', Some o) ->
  e_path o = slashed (c_path c) /\ e_max_tables o = c_max_tables c /\ e_max_readers o = c_max_readers c
  /\ has (e_flags o) RDONLY = c_readonly c /\ has (e_flags o) EXCLUSIVE = c_exclusive c /\ has (e_flags o) ACCEDE = c_shared c
  /\ has (e_flags o) NOMETASYNC = (c_inmemory c && negb (c_readonly c)) /\ has (e_flags o) UTTERLY_NOSYNC = false /\ has (e_flags o) WRITEMAP = false
  /\ has (e_flags o) NOTLS = negb (c_exclusive c) /\ has (e_flags o) NORDAHEAD = true /\ has (e_flags o) COALESCE = false
  /\ e_geometry o = if c_shared c then None else Some (if c_inmemory c then (2 ^ 26, 2 ^ 21, 4096) else (2 ^ 41, 2 ^ 31, 4096)).
Proof. exact open_flags. Qed.
Print Assumptions C92_flags_partial.

(** Refused for a conflict of options, it has made the directory all the same. *)
Theorem C92_refused_refuted : exists f cwd c f', fs_ok f /\ f !! cwd = Some Dir /\ open_env f cwd c = (f', None) /\ ~ no_conflict c /\ f' <> f
  /\ status f cwd (c_path c) = None /\ status f' cwd (c_path c) = Some Dir.
Proof. exact refused_trace. Qed.
Print Assumptions C92_refused_refuted.

(** One of the default flags never reaches the library. *)
Theorem C92_coalesce_refuted : forall c, has (config_flags c) COALESCE = true /\
  forall f cwd f' o, open_env f cwd c = (f', Some o) -> has (e_flags o) COALESCE = false.
Proof. exact coalesce_dropped. Qed.
Print Assumptions C92_coalesce_refuted.

Example C92_case : exists o o', open_env w_fs [] (w_cfg (p_slash [k_d; k_erigon; k_chaindata]) false true false false true) = (w_fs, Some o)
  /\ snd (open_env w_fs [] (w_cfg p_new true false true true false)) = Some o' /\ e_flags o' = 0xC44000
  /\ snd (open_env w_fs [] (w_cfg (p_slash [k_d; k_erigon; k_chaindata]) true false false false false)) = None
  /\ snd (open_env w_fs [] (w_cfg (p_slash [k_d]) false false false false false)) = None
  /\ snd (open_env w_fs [] (w_cfg (p_slash [[102]]) true false false false false)) = None.
Proof. 
  exists w_opened, w_opened'. split; [apply pair_is; [apply open_env_same; reflexivity|vm_compute; reflexivity]|]. split; [vm_compute; reflexivity|].
  split; [vm_compute; reflexivity|]. split; [vm_compute; reflexivity|]. split; vm_compute; reflexivity.
Qed.
