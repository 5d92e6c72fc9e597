(** Final forms and concrete cases for data directories, temporary directories and environments. *)
From stdpp Require Import gmap.
From Verif Require Import Base BaseFacts FsModel FsProofs UtilModel DataDirModel DataDirSpec DataDirProofs.

Lemma made_paths d : made d -> exists b v, d = paths_of b v.
Proof.
  assert (X : forall g cwd b c g', data_directory g cwd b c = (g', Some d) -> exists b v, d = paths_of b v).
  { intros g cwd b c g'. unfold data_directory. destruct c; cbn [negb].
    - destruct (create_directories g cwd (slashed b)) as [h [m|]]; [|discriminate]. intros [= <- <-]. eauto.
    - intros [= <- <-]. eauto. }
  intros (g & cwd & b & c & g' & [H|H]); [eapply X; exact H|].
  destruct (chaindata_accepts _ _ _ _ _ H) as (-> & D & _).
  destruct (from_chaindata_unfold _ _ _ _ H D) as [Q|(b' & e & c' & _ & _ & _ & _ & Q)]; [discriminate|]. symmetry in Q. eapply X; exact Q.
Qed.
Lemma layout d : made d -> exists b, dd_base d = b /\ dd_chaindata d = b ++ k_erigon ++ [47] ++ k_chaindata ++ [47] /\ dd_nodes d = b ++ k_nodes ++ [47]
  /\ dd_etl d = b ++ k_etl ++ [47] /\ (b = [] \/ ends_with_slash b).
Proof.
  intros H. destruct (made_paths d H) as (b & v & ->). exists (slashed b). rewrite paths_of_eq. cbn. repeat split. destruct b as [|x b]; [now left|]. right. apply slashed_ends. discriminate.
Qed.

Lemma from_chaindata_ok f cwd b p : ends_with_slash b ->
  (p = b ++ k_erigon ++ [47] ++ k_chaindata \/ p = b ++ k_erigon ++ [47] ++ k_chaindata ++ [47]) -> status f cwd p = Some Dir ->
  exists d, from_chaindata f cwd p = (f, Some d) /\ dd_base d = b /\ dd_chaindata d = b ++ k_erigon ++ [47] ++ k_chaindata ++ [47]
    /\ dd_nodes d = b ++ k_nodes ++ [47] /\ dd_etl d = b ++ k_etl ++ [47] /\ dd_valid d = true.
Proof.
  intros Hb Hp D. assert (E : slashed p = b ++ k_erigon ++ [47] ++ k_chaindata ++ [47]).
  { destruct Hp as [->| ->].
    - change k_chaindata with (firstn 8 k_chaindata ++ [97]).
      replace (b ++ k_erigon ++ [47] ++ firstn 8 k_chaindata ++ [97]) with ((b ++ k_erigon ++ [47]) ++ firstn 8 k_chaindata ++ [97]) by (now rewrite <- !app_assoc).
      rewrite slashed_name by discriminate. now rewrite <- !app_assoc.
    - apply slashed_end. exists (b ++ k_erigon ++ [47] ++ k_chaindata). now rewrite <- !app_assoc. }
  exists (paths_of b true). split; [now apply chaindata_ok|]. rewrite paths_of_eq, (slashed_end b Hb). cbn. auto.
Qed.
Lemma round_trip f cwd d : made d -> dd_base d <> [] -> status f cwd (dd_chaindata d) = Some Dir ->
  exists d', from_chaindata f cwd (dd_chaindata d) = (f, Some d') /\ dd_base d' = dd_base d /\ dd_chaindata d' = dd_chaindata d /\ dd_nodes d' = dd_nodes d
    /\ dd_etl d' = dd_etl d /\ dd_valid d' = true.
Proof.
  intros H Hb D. destruct (made_paths d H) as (b & v & ->). exists (paths_of b true). split; [|auto].
  apply chaindata_round_trip; [|exact D]. intros ->. apply Hb. reflexivity.
Qed.
Lemma validity f cwd b f' d : data_directory f cwd b false = (f', d) ->
  f' = f /\ exists d0, d = Some d0 /\ (dd_valid d0 = true <-> status f cwd (dd_base d0) = Some Dir).
Proof. intros H. destruct (data_directory_plain _ _ _ _ _ H) as (-> & v & -> & Hv). split; [reflexivity|]. exists (paths_of b v). split; [reflexivity|exact Hv]. Qed.
Lemma creation f cwd b f' d : fs_ok f -> f !! cwd = Some Dir -> data_directory f cwd b true = (f', d) ->
  kept f f' /\ new_only f f' (on_the_way cwd (slashed b)) /\
  match d with Some d => dd_valid d = true /\ status f' cwd (dd_base d) = Some Dir | None => b = [] \/ blocked f cwd (slashed b) end.
Proof.
  intros K Dc H. destruct (data_directory_create _ _ _ _ _ K Dc H) as (A & _ & B & C). split; [exact A|]. split; [exact B|].
  destruct d as [d|]; [|exact C]. destruct C as (-> & C). auto.
Qed.
Lemma tree f cwd d f' ok : fs_ok f -> f !! cwd = Some Dir -> made d -> create_tree f cwd d = (f', ok) ->
  kept f f' /\ new_only f f' (fun q => on_the_way cwd (dd_chaindata d) q \/ on_the_way cwd (dd_nodes d) q \/ on_the_way cwd (dd_etl d) q) /\
  (if ok then status f' cwd (dd_chaindata d) = Some Dir /\ status f' cwd (dd_nodes d) = Some Dir /\ status f' cwd (dd_etl d) = Some Dir
   else blocked f cwd (dd_chaindata d) \/ blocked f cwd (dd_nodes d) \/ blocked f cwd (dd_etl d)).
Proof.
  intros K Dc M H. destruct (made_paths d M) as (b & v & ->). destruct (create_tree_ok f cwd b v f' ok K Dc H) as (A & _ & B & C). split; [exact A|]. split; [exact B|exact C].
Qed.
Lemma clear_exact f cwd d l : fs_ok f -> place f cwd (dd_etl d) = Some l -> f !! l = Some Dir ->
  forall q, (inside l q -> clear_etl_temp f cwd d !! q = None) /\ (~ inside l q -> clear_etl_temp f cwd d !! q = f !! q).
Proof.
  intros K P D q. split; [now apply clear_gone|]. intros I. apply clear_else. intros l' P'. rewrite P in P'. now injection P' as <-.
Qed.
Lemma clear_not_there f cwd d : status f cwd (dd_etl d) <> Some Dir -> clear_etl_temp f cwd d = f.
Proof.
  intros H. unfold clear_etl_temp. destruct (is_directory f cwd (dd_etl d)) eqn:D; [apply status_dir in D; contradiction|]. now rewrite andb_false_r.
Qed.
Lemma clear_keeps f cwd d l q : made d -> place f cwd (dd_chaindata d) = Some l -> q = l \/ inside l q -> clear_etl_temp f cwd d !! q = f !! q.
Proof. intros M. destruct (made_paths d M) as (b & v & ->). apply clear_chaindata. Qed.

(** Temporary directories. *)
Lemma temp_fresh f cwd tdp rd tries f' path : draws_ok rd -> create_temporary_directory f cwd tdp rd tries = (f', Some path) ->
  exists l, place f cwd path = Some l /\ f !! l = None /\ status f cwd path = None /\ status f' cwd path = Some Dir /\ f' = <[l := Dir]> f
    /\ exists name, length name = 10%nat /\ Forall (fun c => 48 <= c <= 57 \/ 97 <= c <= 122) name /\ path = append tdp name.
Proof.
  intros R T. pose proof (temp_spec _ _ _ _ _ _ _ R T) as (j & l & _ & Ep & P & N0 & _ & _ & ->). exists l. split; [exact P|]. split; [exact N0|].
  split; [unfold status; now rewrite P|]. split.
  - assert (Hne : path <> []) by (intros ->; discriminate). unfold status. rewrite place_eq in * by exact Hne. rewrite (walk_mono f _ _ _ _ (insert_subseteq f l Dir N0) P). apply lookup_insert.
  - split; [reflexivity|]. exists (random_string (rd j)). destruct (R j) as (L & F). split; [unfold random_string; now rewrite map_length|]. split; [|exact Ep].
    unfold random_string. apply Forall_map. eapply Forall_impl; [|exact F]. intros n H. apply alnum_range. exact H.
Qed.
Lemma temp_fails f cwd tdp rd tries f' : draws_ok rd -> create_temporary_directory f cwd tdp rd tries = (f', None) ->
  f' = f /\ (status f cwd tdp <> Some Dir
             \/ (exists j d, (j < tries)%nat /\ status f cwd (append tdp (random_string (rd j))) = Some (File d))
             \/ forall j, (j < tries)%nat -> status f cwd (append tdp (random_string (rd j))) = Some Dir).
Proof. intros R T. exact (temp_spec _ _ _ _ _ _ _ R T). Qed.

(** *** Cases *)
Definition fs_okb (f : fsys) : bool :=
  match f !! [] with Some Dir => forallb (fun e : loc * node => match e.1 with [] => true | _ => match f !! removelast e.1 with Some Dir => true | _ => false end end) (map_to_list f) | _ => false end.
Lemma fs_okb_ok f : fs_okb f = true -> fs_ok f.
Proof.
  unfold fs_okb. destruct (f !! []) as [[|]|] eqn:E; try discriminate. rewrite forallb_forall. intros H. split; [exact E|]. intros l c n Hn.
  specialize (H (l ++ [c], n)). cbn [fst] in H. assert (I : List.In (l ++ [c], n) (map_to_list f)) by (now apply elem_of_list_In, elem_of_map_to_list).
  specialize (H I). rewrite removelast_app_one in H. destruct (l ++ [c]) eqn:El; [now destruct l|]. destruct (f !! l) as [[|]|]; congruence.
Qed.
Definition k_d : bytes := [100].
Definition k_Erigon : bytes := [69; 114; 105; 103; 111; 110].
Definition k_Chaindata : bytes := [67; 104; 97; 105; 110; 100; 97; 116; 97].
(** /d/erigon/chaindata/mdbx.dat, /d/etl-temp with a file and a directory in it, /d/Erigon/Chaindata, /erigon/chaindata, /f a file. *)
Definition w_fs : fsys := list_to_map
  [([], Dir); ([k_d], Dir); ([k_d; k_erigon], Dir); ([k_d; k_erigon; k_chaindata], Dir); ([k_d; k_erigon; k_chaindata; k_data_file], File [1; 2; 3]);
   ([k_d; k_etl], Dir); ([k_d; k_etl; [49]], File [7]); ([k_d; k_etl; [50]], Dir); ([k_d; k_etl; [50]; [49]], File []);
   ([k_d; k_Erigon], Dir); ([k_d; k_Erigon; k_Chaindata], Dir); ([k_erigon], Dir); ([k_erigon; k_chaindata], Dir); ([[102]], File [0])].
Lemma pair_is {A B} (x : A * B) a b : fst x = a -> snd x = b -> x = (a, b).
Proof. destruct x. cbn. congruence. Qed.
Lemma from_chaindata_same f cwd p : fst (from_chaindata f cwd p) = f.
Proof.
  unfold from_chaindata. destruct (_ || _); [reflexivity|]. destruct (split _ _); [|reflexivity]. destruct (_ <=? _)%nat; [reflexivity|].
  destruct (_ || _); reflexivity.
Qed.
Lemma w_fs_ok : fs_ok w_fs.
Proof. apply fs_okb_ok. vm_compute. reflexivity. Qed.
Definition p_slash (names : list bytes) : bytes := concat (map (fun n => 47 :: n) names).
Definition d_of (r : fsys * option datadir) : datadir := match snd r with Some d => d | None => paths_of [] false end.
(** A directory with the names in another case: the data directory made of it has another chaindata directory, which is not there. *)
Lemma other_case : exists f cwd p d f', fs_ok f /\ from_chaindata f cwd p = (f, Some d) /\ status f cwd p = Some Dir /\ status f cwd (dd_chaindata d) = None
  /\ create_tree f cwd d = (f', true) /\ place f' cwd (dd_chaindata d) <> place f' cwd p.
Proof.
  set (f := delete [k_d; k_erigon; k_chaindata; k_data_file] (delete [k_d; k_erigon; k_chaindata] (delete [k_d; k_erigon] w_fs))).
  set (p := p_slash [k_d; k_Erigon; k_Chaindata]).
  exists f, [], p, (d_of (from_chaindata f [] p)), (create_tree f [] (d_of (from_chaindata f [] p))).1.
  split; [apply fs_okb_ok; vm_compute; reflexivity|]. split; [apply pair_is; [apply from_chaindata_same|vm_compute; reflexivity]|].
  split; [vm_compute; reflexivity|]. split; [vm_compute; reflexivity|].
  split; [apply pair_is; [reflexivity|vm_compute; reflexivity]|]. vm_compute. discriminate.
Qed.
Lemma relative_case : exists f cwd p, fs_ok f /\ f !! cwd = Some Dir /\ p = k_erigon ++ [47] ++ k_chaindata /\ status f cwd p = Some Dir /\ from_chaindata f cwd p = (f, None).
Proof. 
  exists w_fs, [], (k_erigon ++ [47] ++ k_chaindata). split; [apply w_fs_ok|]. split; [vm_compute; reflexivity|]. split; [reflexivity|].
  split; [vm_compute; reflexivity|]. apply pair_is; [apply from_chaindata_same|vm_compute; reflexivity].
Qed.
Lemma doubled_case : exists f cwd p, fs_ok f /\ f !! cwd = Some Dir /\ p = [47] ++ k_d ++ [47] ++ k_erigon ++ [47; 47] ++ k_chaindata /\ status f cwd p = Some Dir
  /\ from_chaindata f cwd p = (f, None).
Proof. 
  exists w_fs, [], ([47] ++ k_d ++ [47] ++ k_erigon ++ [47; 47] ++ k_chaindata). split; [apply w_fs_ok|]. split; [vm_compute; reflexivity|]. split; [reflexivity|].
  split; [vm_compute; reflexivity|]. apply pair_is; [apply from_chaindata_same|vm_compute; reflexivity].
Qed.

Definition w_cfg (p : bytes) (create ro ex mem sh : bool) : env_config := mkCfg p create ro ex mem sh 128 100.
Definition p_new : bytes := p_slash [k_d; [110]; [109]].
Lemma open_env_same f cwd c : c_create c = false -> fst (open_env f cwd c) = f.
Proof.
  intros H. unfold open_env. destruct (c_path c); [reflexivity|]. rewrite H. cbn [negb]. cbv zeta. cbn beta iota.
  repeat match goal with |- context [if ?x then _ else _] => destruct x; [reflexivity|] end. reflexivity.
Qed.
Definition o_of (r : fsys * option opened) : opened := match snd r with Some o => o | None => mkOpened [] 0 None 0 0 end.
Definition w_opened : opened := o_of (open_env w_fs [] (w_cfg (p_slash [k_d; k_erigon; k_chaindata]) false true false false true)).
Definition w_opened' : opened := o_of (open_env w_fs [] (w_cfg p_new true false true true false)).
Definition there (f : fsys) (l : loc) : bool := match f !! l with Some _ => true | None => false end.
Lemma refused_trace : exists f cwd c f', fs_ok f /\ f !! cwd = Some Dir /\ open_env f cwd c = (f', None) /\ ~ no_conflict c /\ f' <> f
  /\ status f cwd (c_path c) = None /\ status f' cwd (c_path c) = Some Dir.
Proof.
  exists w_fs, [], (w_cfg p_new true true false false false), (open_env w_fs [] (w_cfg p_new true true false false false)).1. split; [apply w_fs_ok|].
  split; [vm_compute; reflexivity|]. split; [apply pair_is; [reflexivity|vm_compute; reflexivity]|]. split; [intros (_ & _ & H); apply H; split; reflexivity|].
  split; [|split; vm_compute; reflexivity]. intros E. apply (f_equal (fun g : fsys => there g [k_d; [110]])) in E.
  assert (A : there (open_env w_fs [] (w_cfg p_new true true false false false)).1 [k_d; [110]] = true) by (vm_compute; reflexivity).
  assert (B : there w_fs [k_d; [110]] = false) by (vm_compute; reflexivity). pose proof (eq_trans (eq_sym A) (eq_trans E B)) as Q. discriminate Q.
Qed.
Lemma coalesce_dropped : forall c, has (config_flags c) COALESCE = true /\ forall f cwd f' o, open_env f cwd c = (f', Some o) -> has (e_flags o) COALESCE = false.
Proof.
  intros c. split; [unfold config_flags; destruct (c_readonly c), (c_inmemory c), (c_exclusive c), (c_shared c); reflexivity|].
  intros f cwd f' o H. now destruct (open_flags _ _ _ _ _ H) as (_ & _ & _ & _ & _ & _ & _ & _ & _ & _ & _ & E & _).
Qed.
