(** Two stores that hold the same world, and a block over them. *)
From stdpp Require Import gmap.
From Coq Require Import ZArith.
From Verif Require Import Base BaseFacts RlpModel TxModel BlockModel TypesModel ChainModel StateModel StateSpec MemBufModel MemBufSpec EvmModel EvmSpec EvmCases ProcessorModel ProcessorCases ScriptSpec ScriptEvm ScriptProofs ScriptSim RunSpec RunProofs RunWritable RunCodes.

Definition r_hash (b : bytes) : bytes := match b with [] => kEmptyHash | _ => e_hash b end.
Definition r_code_of (h : bytes) : bytes := if bytes_eqb h (e_hash [1]) then [1] else [].
(** The state of ProcessorCases in a MemoryBuffer: the contract 200 is at incarnation 3; an earlier life of it has left a slot at incarnation 1. *)
Definition r_mem : membuf :=
  mkMem (<[100 := mkAccount 3 10000000 kEmptyHash 0]> (<[200 := mkAccount 1 50 (e_hash [1]) 3]> ∅)) (<[e_hash [1] := [1]]> ∅) (<[200 := 2]> ∅)
        (<[(200, 3, 5) := 7]> (<[(200, 1, 6) := 13]> ∅)) ∅ ∅ 9.
Definition r_world : world := world_of r_code_of p_db.
Definition r_reference := reference_block r_hash EVMC_LONDON (fun _ _ _ => 100) (fun _ i => Some i) (fun _ => zeros 32) e_interp 1025 (fun _ => [1; 2]) p_cfg p_header [p_call; p_create] [p_ommer].
Definition r_run db it := run_block r_hash db EVMC_LONDON (fun _ _ _ => 100) (fun _ i => Some i) (fun _ => zeros 32) e_interp 1025 it (fun _ => [1; 2]) p_cfg p_header [p_call; p_create] [p_ommer].
Lemma r_defined : match r_reference r_world with
  | Some (rs, v, ops, w) => v = kOk /\ map rc_cumulative_gas_used rs = [63600; 116816] /\ length ops = 57%nat /\ forallb (fun c => bytes_eqb (r_code_of (r_hash c)) c) (flat_map op_code ops) = true
      /\ map (fun a => ac_balance (w_get w a)) [100; 200; 300; 99; 98] = [8831770; 60; 20; 2062500000000350448; 1500000000000000000] /\ w_current w 200 5 = 9 /\ contract_in w 200 = true
  | None => False end.
Proof. vm_compute. repeat split. Qed.

Lemma r_acc a : m_accounts r_mem !! a = if a =? 100 then Some (mkAccount 3 10000000 kEmptyHash 0) else if a =? 200 then Some (mkAccount 1 50 (e_hash [1]) 3) else None.
Proof.
  unfold r_mem. cbn [m_accounts]. destruct (N.eqb_spec a 100) as [->|H1]; [apply lookup_insert|]. rewrite lookup_insert_ne by congruence.
  destruct (N.eqb_spec a 200) as [->|H2]; [apply lookup_insert|]. rewrite lookup_insert_ne by congruence. apply lookup_empty.
Qed.
Lemma r_st a i k : m_storage r_mem !! (a, i, k) = if (a =? 200) && (i =? 3) && (k =? 5) then Some 7 else if (a =? 200) && (i =? 1) && (k =? 6) then Some 13 else None.
Proof.
  unfold r_mem. cbn [m_storage]. destruct (decide ((a, i, k) = (200, 3, 5))) as [[= -> -> ->]|H1]; [apply lookup_insert|]. rewrite lookup_insert_ne by congruence.
  replace ((a =? 200) && (i =? 3) && (k =? 5)) with false by (destruct (N.eqb_spec a 200), (N.eqb_spec i 3), (N.eqb_spec k 5); subst; try reflexivity; now destruct H1).
  destruct (decide ((a, i, k) = (200, 1, 6))) as [[= -> -> ->]|H2]; [apply lookup_insert|]. rewrite lookup_insert_ne by congruence.
  replace ((a =? 200) && (i =? 1) && (k =? 6)) with false by (destruct (N.eqb_spec a 200), (N.eqb_spec i 1), (N.eqb_spec k 6); subst; try reflexivity; now destruct H2). apply lookup_empty.
Qed.
Lemma r_prev a : default 0 (m_prev r_mem !! a) <= 2.
Proof. unfold r_mem. cbn [m_prev]. destruct (N.eq_dec a 200) as [->|H]; [now rewrite lookup_insert|]. rewrite lookup_insert_ne by congruence. now rewrite lookup_empty. Qed.
Lemma r_starts : starts r_code_of (mem_reader r_mem) r_world.
Proof.
  unfold starts. cbn [mem_reader read_account read_storage r_world world_of w_acct w_current w_original w_gone w_born w_suicides w_logs w_touched w_refund w_addresses w_keys p_db e_db].
  split; [|split]; [| |repeat split; intros; reflexivity].
  - intros a. rewrite r_acc. destruct (a =? 100); [reflexivity|]. now destruct (a =? 200).
  - intros a k. rewrite r_acc. destruct (N.eqb_spec a 100) as [->|H]; [cbn [a_incarnation]; rewrite r_st; reflexivity|]. destruct (N.eqb_spec a 200) as [->|H2]; [|reflexivity].
    cbn [a_incarnation]. rewrite r_st. cbn [N.eqb Pos.eqb andb]. now destruct (k =? 5).
Qed.
Lemma p_starts : starts r_code_of p_db r_world.
Proof. unfold starts. repeat split; intros; reflexivity. Qed.
Lemma r_code_hash : r_hash (r_code_of (e_hash [1])) = e_hash [1] /\ r_hash (r_code_of kEmptyHash) = kEmptyHash. Proof. vm_compute. split; reflexivity. Qed.
Lemma r_db_ok : db_ok r_hash r_code_of (mem_reader r_mem) 1000.
Proof.
  split; [|split].
  - intros a k. cbn [mem_reader read_storage]. rewrite r_st. now rewrite !andb_false_r.
  - intros a c. cbn [mem_reader read_account read_code]. rewrite r_acc. destruct (a =? 100); [|destruct (a =? 200); [|discriminate]]; intros [= <-]; cbn [a_code_hash a_incarnation].
    + split; [apply r_code_hash|]. split; [congruence|reflexivity].
    + split; [apply r_code_hash|]. split; [intros _; vm_compute; reflexivity|reflexivity].
  - intros a. cbn [mem_reader previous_incarnation]. pose proof (r_prev a). lia.
Qed.
Lemma p_db_ok : db_ok r_hash r_code_of p_db 1000.
Proof.
  split; [|split].
  - intros a k. cbn [p_db e_db read_storage]. now rewrite andb_false_r.
  - intros a c. cbn [p_db e_db read_account read_code]. destruct (a =? 100); [|destruct (a =? 200); [|discriminate]]; intros [= <-]; cbn [a_code_hash a_incarnation].
    + split; [apply r_code_hash|]. split; [congruence|reflexivity].
    + split; [apply r_code_hash|]. split; [intros _; vm_compute; reflexivity|reflexivity].
  - intros a. reflexivity.
Qed.
Lemma r_codes ops : forallb (fun c => bytes_eqb (r_code_of (r_hash c)) c) (flat_map op_code ops) = true -> codes_ok r_hash r_code_of ops.
Proof. intros H. split; [reflexivity|]. split; [vm_compute; reflexivity|]. intros c Hc. rewrite forallb_forall in H. apply bytes_eqb_eq. now apply H. Qed.
Lemma db_ok_room keccak code_of db n m : m <= n -> db_ok keccak code_of db n -> db_ok keccak code_of db m.
Proof. intros Hm (D1 & D2 & D3). split; [exact D1|]. split; [intros a c E; destruct (D2 a c E) as (E1 & E2 & E3); repeat split; auto; lia|intros a; specialize (D3 a); lia]. Qed.
Lemma r_witness : exists rs ops w, r_reference r_world = Some (rs, kOk, ops, w) /\ holds r_hash r_code_of p_db r_world ops /\ holds r_hash r_code_of (mem_reader r_mem) r_world ops
  /\ N.of_nat (length ops) <= 1000 /\ codes_ok r_hash r_code_of ops /\ incarnations_kept (fun _ => false) r_world w.
Proof.
  pose proof r_defined as H. destruct (r_reference r_world) as [[[[rs v] ops] w]|]; [|destruct H]. destruct H as (-> & _ & HL & HC & _ & _ & HK). exists rs, ops, w. split; [reflexivity|].
  assert (L : N.of_nat (length ops) <= 1000) by lia. pose proof (r_codes ops HC) as C.
  split; [split; [exact p_starts|split; [now apply db_ok_room with 1000, p_db_ok|exact C]]|]. split; [split; [exact r_starts|split; [now apply db_ok_room with 1000, r_db_ok|exact C]]|]. split; [exact L|]. split; [exact C|].
  split; [|discriminate]. intros a Ha _. replace a with 200; [exact HK|]. unfold contract_in in Ha. cbn in Ha. destruct (a =? 100); [discriminate|]. destruct (N.eqb_spec a 200); [congruence|discriminate].
Qed.
Lemma r_coded : coded r_world.
Proof. intros a c. cbn. destruct (a =? 100); [intros [= <-]; vm_compute; congruence|]. destruct (a =? 200); [|discriminate]. now intros [= <-] _. Qed.
Lemma r_mem_ok : mem_ok r_hash r_code_of 1000 r_mem (fun _ => false) r_world.
Proof.
  constructor; [exact r_starts|exact r_db_ok| |].
  - intros a i k v. rewrite r_st. destruct (N.eqb_spec a 200) as [->|]; [|discriminate]. intros Hv. left. eexists. split; [rewrite r_acc; reflexivity|]. split; [discriminate|]. cbn [N.eqb Pos.eqb a_incarnation andb] in *.
    destruct (N.eqb_spec i 3) as [->|]; [lia|]. destruct (N.eqb_spec i 1) as [->|]; [lia|discriminate].
  - intros [[a i] k] v. rewrite r_st. destruct (_ && _); [intros [= <-]; discriminate|]. destruct (_ && _); [intros [= <-]; discriminate|discriminate].
Qed.
Lemma r_visits : visits elements /\ visits (fun X => List.rev (elements X)).
Proof. split; intros X; [reflexivity|symmetry; apply Permutation.Permutation_rev]. Qed.
Lemma r_fits : Forall (fits EVMC_LONDON) [p_call; p_create].
Proof. repeat constructor; vm_compute; congruence. Qed.
