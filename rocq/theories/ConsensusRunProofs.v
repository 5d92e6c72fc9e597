(** Proofs about the blockchain tests of the consensus test runner. *)
From Coq Require Import Strings.String.
From stdpp Require Import gmap.
From Verif Require Import Base BaseFacts RlpModel TypesModel BlockModel UtilModel UtilSpec UtilProofs ChainModel DbModel MemBufModel ConsensusSpec ConsensusModel ConsensusProofs ConsensusProofs3 ConsensusRunModel.
Open Scope list_scope.
Open Scope N_scope.

(** The string is the encoding of one block and nothing else. *)
Definition whole_block (rlp : bytes) (b : block) : Prop := exists v, hex_denotes rlp v /\ decode_block v = Ok (b, []).
(** The decoder does not read past the end of it. *)
Definition defined_block (rlp : bytes) : Prop := forall v, hex_denotes rlp v -> decode_block v <> UB /\ decode_block v <> NoFuel.
Lemma whole_dec rlp : defined_block rlp -> (exists v b, from_hex rlp = Some v /\ decode_block v = Ok (b, []) /\ whole_block rlp b)
  \/ ((forall b, ~ whole_block rlp b) /\ (from_hex rlp = None \/ exists v, from_hex rlp = Some v /\ ((exists b x r, decode_block v = Ok (b, x :: r)) \/ exists e, decode_block v = Err e))).
Proof.
  intros D. destruct (from_hex rlp) as [v|] eqn:H.
  - pose proof (proj1 (from_hex_spec _ _) H) as Hv. destruct (D v Hv) as (U & F).
    assert (N : forall b, decode_block v <> Ok (b, []) -> ~ whole_block rlp b). { intros b X (v' & Hv' & E). rewrite (hex_one _ _ _ Hv' Hv) in E. exact (X E). }
    destruct (decode_block v) as [[b [|x r]]|e| |] eqn:E; [left; exists v, b|right|right|now contradiction U|now contradiction F].
    + split; [reflexivity|]. split; [exact E|]. now exists v.
    + split; [intros b'; apply N; discriminate|]. right. exists v. split; [reflexivity|]. left. now exists b, x, r.
    + split; [intros b'; apply N; discriminate|]. right. exists v. split; [reflexivity|]. right. now exists e.
  - right. split; [|now left]. intros b (v & Hv & _). apply from_hex_spec in Hv. congruence.
Qed.

Section Run.
  Context {C : Type}.
  Variable insert : C -> block -> bool -> out (bool * C).
  (** The blocks of a test are as the file says: each is accepted, or it is refused where an exception is expected. *)
  Inductive plays : list json_block -> C -> C -> Prop :=
  | plays_none c : plays [] c c
  | plays_accepted rlp b l c c1 c2 : whole_block rlp b -> insert c b false = Done (true, c1) -> plays l c1 c2 -> plays (mkJsonBlock None rlp :: l) c c2
  | plays_no_block e rlp l c c2 : (forall b, ~ whole_block rlp b) -> plays l c c2 -> plays (mkJsonBlock (Some e) rlp :: l) c c2
  | plays_refused e rlp b check l c c1 c2 : whole_block rlp b -> (check = true <-> e = str "InvalidStateRoot"%string) -> insert c b check = Done (false, c1) -> plays l c1 c2 ->
      plays (mkJsonBlock (Some e) rlp :: l) c c2.
  Lemma whole_one rlp b b' : whole_block rlp b -> whole_block rlp b' -> b = b'.
  Proof. intros (v & H & E) (v' & H' & E'). rewrite (hex_one _ _ _ H' H), E in E'. congruence. Qed.
  Lemma plays_none_inv rlp b l c c2 : whole_block rlp b -> plays (mkJsonBlock None rlp :: l) c c2 <-> exists c1, insert c b false = Done (true, c1) /\ plays l c1 c2.
  Proof.
    intros Wb. split; [|intros (c1 & E & P); now apply (plays_accepted rlp b l c c1 c2)]. intros P. inversion P as [|rlp' b' l' c' c1 c2' Wb' E Q| |]; subst. exists c1. rewrite (whole_one _ _ _ Wb Wb'). now split.
  Qed.
  Lemma plays_some_inv e rlp b l c c2 : whole_block rlp b -> plays (mkJsonBlock (Some e) rlp :: l) c c2 <-> exists c1, insert c b (bytes_eqb e (str "InvalidStateRoot"%string)) = Done (false, c1) /\ plays l c1 c2.
  Proof.
    intros Wb. assert (K : bytes_eqb e (str "InvalidStateRoot"%string) = true <-> e = str "InvalidStateRoot"%string) by apply bytes_eqb_eq. split.
    - intros P. inversion P as [| |e' rlp' l' c' c2' N Q|e' rlp' b' check l' c' c1 c2' Wb' Kc E Q]; subst; [now destruct (N b)|]. exists c1. rewrite (whole_one _ _ _ Wb Wb').
      assert (bytes_eqb e (str "InvalidStateRoot"%string) = check) as -> by (rewrite <- Kc in K; destruct check, (bytes_eqb e (str "InvalidStateRoot"%string)); intuition congruence). now split.
    - intros (c1 & E & P). exact (plays_refused e rlp b _ l c c1 c2 Wb K E P).
  Qed.
  Theorem blocks_played l : forall c c', (forall j, In j l -> defined_block (jb_rlp j)) -> run_blocks insert l c = Done (kPassed, c') <-> plays l c c'.
  Proof.
    induction l as [|[ex rlp] l IH]; intros c c' D.
    - cbn. split; [intros [= ->]; constructor|]. inversion 1. reflexivity.
    - assert (Dl : forall j, In j l -> defined_block (jb_rlp j)) by (intros j I; apply D; now right). specialize (D _ (or_introl eq_refl)). cbn [jb_rlp] in D.
      cbn [run_blocks]. unfold run_block. cbn [jb_exception jb_rlp]. destruct (whole_dec rlp D) as [(v & b & H & E & Wb)|(N & H)].
      + rewrite H, E. destruct ex as [e|].
        * rewrite (plays_some_inv e rlp b l c c' Wb). destruct (insert c b (bytes_eqb e (str "InvalidStateRoot"%string))) as [[[|] c1]| |]; cbn [obind negb].
          1,3,4: split; [discriminate|]; intros (c2 & Q & _); discriminate Q.
          rewrite (IH c1 c' Dl). split; [intros P; now exists c1|]. intros (c2 & Q & P). now injection Q as <-.
        * rewrite (plays_none_inv rlp b l c c' Wb). destruct (insert c b false) as [[[|] c1]| |]; cbn [obind negb].
          2,3,4: split; [discriminate|]; intros (c2 & Q & _); discriminate Q.
          rewrite (IH c1 c' Dl). split; [intros P; now exists c1|]. intros (c2 & Q & P). now injection Q as <-.
      + assert (R : (do (s, c0) := match from_hex rlp with
            | Some rlp0 => match decode_block rlp0 with
              | Ok (b, []) => do (ok, c0) := insert c b match ex with Some e => bytes_eqb e (str "InvalidStateRoot"%string) | None => false end in
                  if negb ok then Done (if match ex with Some _ => true | None => false end then kPassed else kFailed, c0) else Done (if match ex with Some _ => true | None => false end then kFailed else kPassed, c0)
              | Ok (b, _ :: _) => Done (if match ex with Some _ => true | None => false end then kPassed else kFailed, c)
              | Err _ => Done (if match ex with Some _ => true | None => false end then kPassed else kFailed, c)
              | _ => Undefined end
            | None => Done (if match ex with Some _ => true | None => false end then kPassed else kFailed, c) end in match s with kPassed => run_blocks insert l c0 | _ => Done (s, c0) end)
          = match ex with Some _ => run_blocks insert l c | None => Done (kFailed, c) end).
        { destruct H as [->|(v & -> & [(b & x & r & ->)|(e & ->)])]; destruct ex; reflexivity. }
        rewrite R. destruct ex as [e|].
        * rewrite (IH c c' Dl). split; [intros P; now apply plays_no_block|]. intros P. inversion P as [| |e' rlp' l' c0 c2' _ Q|e' rlp' b' check l' c0 c1 c2' Wb' _ _ _]; subst; [exact Q|]. now destruct (N b').
        * split; [discriminate|]. intros P. inversion P as [|rlp' b' l' c0 c1 c2' Wb' _ _| |]; subst. now destruct (N b').
  Qed.

  Variable keccak : bytes -> bytes.
  Variable start : chain_config -> block -> membuf -> C.
  Variable state_of : C -> membuf.
  Variable root : membuf -> bytes.
  (** What a test says of the state at its end: its root, or else all of it. *)
  Definition ends_as_said (t : json_test) (m : membuf) : Prop :=
    match jt_post_hash t with Some h => exists v, hex_denotes h v /\ root m = v | None => state_described (reads m) (jt_post t) end.
  (** The configuration of a test: that of its network, but for the seal engine, which the file names. *)
  Definition configured_as (c : chain_config) (seal : bytes) (config : chain_config) : Prop :=
    (seal = str "Ethash"%string /\ cfg_seal_engine config = kEthash \/ seal = str "NoProof"%string /\ cfg_seal_engine config = kNoProof)
    /\ cfg_chain_id config = cfg_chain_id c /\ cfg_fork_blocks config = cfg_fork_blocks c /\ cfg_muir_glacier config = cfg_muir_glacier c /\ cfg_dao_block config = cfg_dao_block c.
  Lemma configured c seal config : configured_as c seal config -> exists s, seal_of seal = Some s /\ config = with_seal c s.
  Proof.
    destruct config as [i s f g d]. unfold configured_as, with_seal. cbn. intros ([(-> & ->)|(-> & ->)] & -> & -> & -> & ->); eexists; (split; [vm_compute; reflexivity|reflexivity]).
  Qed.
  (** A file as it should be. *)
  Record test_ok (t : json_test) (genesis : block) (config : chain_config) : Prop := {
    to_genesis : whole_block (jt_genesis t) genesis;
    to_network : exists c, network_config (jt_network t) = Some c /\ configured_as c (jt_seal t) config;
    to_pre : section_ok (jt_pre t) /\ codes_apart keccak (jt_pre t);
    to_blocks : forall j, In j (jt_blocks t) -> defined_block (jb_rlp j);
    to_post : match jt_post_hash t with Some h => exists v, hex_denotes h v /\ List.length v = 32%nat | None => section_ok (jt_post t) end
  }.
  Theorem test_verdict t genesis config : test_ok t genesis config -> (forall m c, slots_ok m -> plays (jt_blocks t) (start config genesis m) c -> slots_ok (state_of c)) ->
    exists m, slots_ok m /\ state_described (reads m) (jt_pre t)
      /\ (blockchain_test insert keccak start state_of root t = Done kPassed <-> exists c, plays (jt_blocks t) (start config genesis m) c /\ ends_as_said t (state_of c)).
  Proof.
    intros [(gv & Hg & Eg) (c0 & En & Cf) (Sp & Ca) Db Po] So. destruct (configured _ _ _ Cf) as (s & Es & ->). destruct (pre_state keccak (jt_pre t) Sp Ca) as (m & Em & Sm & Dm). exists m. split; [exact Sm|]. split; [exact Dm|].
    unfold blockchain_test. rewrite (hex_value _ _ Hg). cbn [obind]. rewrite Eg. cbn [check_rlp_err obind]. rewrite En. cbn [value obind]. rewrite Es, Em. cbn [obind].
    set (c1 := start (with_seal c0 s) genesis m).
    assert (F : forall c, plays (jt_blocks t) c1 c -> exists ok, final_check root t (state_of c) = Done ok /\ (ok = true <-> ends_as_said t (state_of c))).
    { intros c P. unfold final_check, ends_as_said. destruct (jt_post_hash t) as [h|].
      - destruct Po as (v & Hv & Lv). rewrite (hex_value _ _ Hv). cbn [obind]. eexists. split; [reflexivity|]. unfold to_bytes32. rewrite (to_fixed_long 32 v) by lia. rewrite firstn_all2 by lia. rewrite bytes_eqb_eq. split.
        + intros ->. now exists v.
        + intros (v' & Hv' & ->). exact (hex_one _ _ _ Hv' Hv).
      - exact (post_checked (state_of c) (So m c Sm P) (jt_post t) Po). }
    split.
    - intros E. destruct (run_blocks insert (jt_blocks t) c1) as [[st c]| |] eqn:R; cbn [obind] in E; try discriminate E. destruct st; try discriminate E. apply blocks_played in R; [|exact Db]. destruct (F c R) as (ok & Q & K). rewrite Q in E. cbn [obind] in E. destruct ok; [|discriminate E].
      exists c. split; [exact R|now apply K].
    - intros (c & P & G). destruct (F c P) as (ok & Q & K). apply blocks_played in P; [|exact Db]. rewrite P. cbn [obind]. rewrite Q. cbn [obind]. now rewrite (proj2 K G).
  Qed.
  (** A test whose seal engine is neither of the two is skipped, whatever else it says. *)
  Theorem test_skipped t genesis c : whole_block (jt_genesis t) genesis -> network_config (jt_network t) = Some c -> jt_seal t <> str "Ethash"%string -> jt_seal t <> str "NoProof"%string ->
    blockchain_test insert keccak start state_of root t = Done kSkipped.
  Proof.
    intros (gv & Hg & Eg) En N1 N2. unfold blockchain_test. rewrite (hex_value _ _ Hg). cbn [obind]. rewrite Eg. cbn [check_rlp_err obind]. rewrite En. cbn [value obind]. unfold seal_of.
    destruct (bytes_eqb (jt_seal t) (str "Ethash"%string)) eqn:E1; [apply bytes_eqb_eq in E1; contradiction|]. destruct (bytes_eqb (jt_seal t) (str "NoProof"%string)) eqn:E2; [apply bytes_eqb_eq in E2; contradiction|]. reflexivity.
  Qed.
End Run.

(** Where a test expects no exception, no root is looked at: chains that differ only in the check of the root give the same result. *)
Theorem roots_not_checked {C} (insert insert' : C -> block -> bool -> out (bool * C)) l : (forall c b, insert c b false = insert' c b false) ->
  (forall j, In j l -> jb_exception j <> Some (str "InvalidStateRoot"%string)) -> forall c, run_blocks insert l c = run_blocks insert' l c.
Proof.
  intros A. induction l as [|j l IH]; intros N c; [reflexivity|]. cbn [run_blocks]. assert (E : run_block insert j c = run_block insert' j c).
  { unfold run_block. destruct (from_hex (jb_rlp j)) as [v|]; [|reflexivity]. destruct (decode_block v) as [[b [|x r]]| | |]; try reflexivity.
    replace (match jb_exception j with Some e => bytes_eqb e (str "InvalidStateRoot"%string) | None => false end) with false; [now rewrite A|].
    destruct (jb_exception j) as [e|] eqn:X; [|reflexivity]. symmetry. destruct (bytes_eqb e (str "InvalidStateRoot"%string)) eqn:Y; [|reflexivity]. apply bytes_eqb_eq in Y. subst e. now destruct (N j (or_introl eq_refl)). }
  rewrite E. destruct (run_block insert' j c) as [[[] c1]| |]; cbn [obind]; try reflexivity. apply IH. intros j' I. apply N. now right.
Qed.
(** Whatever the exception, a string that is no block at all is what is expected. *)
Theorem any_exception {C} (insert : C -> block -> bool -> out (bool * C)) e c : run_blocks insert [mkJsonBlock (Some e) (str "not hexadecimal"%string)] c = Done (kPassed, c).
Proof. reflexivity. Qed.
Theorem blocks_verdict {C} (insert : C -> block -> bool -> out (bool * C)) l c c' :
  (forall j v, In j l -> hex_denotes (jb_rlp j) v -> decode_block v <> UB /\ decode_block v <> NoFuel) -> run_blocks insert l c = Done (kPassed, c') <-> plays insert l c c'.
Proof. intros D. apply blocks_played. intros j I v. exact (D j v I). Qed.
