(** Proofs about the runner of the consensus tests: transactions, networks and the status of the process. *)
From Coq Require Import Strings.String.
From stdpp Require Import gmap.
From Verif Require Import Base BaseFacts RlpModel TypesModel UtilModel UtilSpec UtilProofs TxModel TxSpec TxProofs4 ChainModel DbModel FarmModel StateModel MemBufModel ConsensusSpec ConsensusModel ConsensusProofs.
Open Scope list_scope.
Open Scope N_scope.

Section Tx.
  Variable keccak : bytes -> bytes.
  Variable recover : bytes -> bytes -> bool -> option bytes.
  (** The string is the encoding of a transaction that the rules of a chain allow in its first block, and [a] signed it. *)
  Definition accepted (rlp : bytes) (c : chain_config) (a : bytes) : Prop :=
    exists b t, hex_denotes rlp b /\ decode_tx b = Ok (t, []) /\ pre_validate_transaction t 0 c None = kOk /\ recover_sender keccak recover t = Some a.
  Definition as_expected (rlp : bytes) (c : chain_config) (sender : option bytes) : Prop :=
    match sender with Some s => exists a, accepted rlp c a /\ s = to_hex a | None => forall a, ~ accepted rlp c a end.

  Lemma one_network rlp name c s r txn : decoded rlp = Done txn -> network_config name = Some c ->
    exists ok, (ok = true <-> as_expected rlp c s) /\ check_networks keccak recover txn ((name, s) :: r) = if ok then check_networks keccak recover txn r else Done false.
  Proof.
    intros D N. assert (A : forall a, accepted rlp c a <-> exists t, txn = Some t /\ pre_validate_transaction t 0 c None = kOk /\ recover_sender keccak recover t = Some a).
    { intros a. unfold accepted, decoded in *. split.
      - intros (b & t & H & E & P & R). apply from_hex_spec in H. rewrite H, E in D. injection D as <-. now exists t.
      - intros (t & -> & P & R). destruct (from_hex rlp) as [b|] eqn:H; [|discriminate]. apply from_hex_spec in H. destruct (decode_tx b) as [[t' [|y q]]| | |] eqn:E; try discriminate.
        injection D as ->. now exists b, t. }
    cbn [check_networks]. destruct txn as [t|].
    - rewrite N. cbn [value obind]. destruct (pre_validate_transaction t 0 c None) eqn:P.
      1: { destruct s as [x|], (recover_sender keccak recover t) as [a|] eqn:R.
        - exists (bytes_eqb (to_hex a) x). split; [|now destruct (bytes_eqb (to_hex a) x)]. rewrite bytes_eqb_eq. unfold as_expected. split.
          + intros <-. exists a. split; [apply A; now exists t|reflexivity].
          + intros (a' & H & ->). apply A in H as (t' & [= <-] & _ & R'). congruence.
        - exists false. split; [|reflexivity]. split; [discriminate|]. intros (a' & H & _). apply A in H as (t' & [= <-] & _ & R'). congruence.
        - exists false. split; [|reflexivity]. split; [discriminate|]. intros H. exfalso. apply (H a), A. now exists t.
        - exists true. split; [|reflexivity]. split; [|reflexivity]. intros _ a H. apply A in H as (t' & [= <-] & _ & R'). congruence. }
      all: (destruct s as [x|]; [exists false; split; [|reflexivity]; split; [discriminate|]; intros (a' & H & _)|exists true; split; [|reflexivity]; split; [|reflexivity]; intros _ a' H]; apply A in H as (t' & [= <-] & P' & _); congruence).
    - destruct s as [x|]; [exists false|exists true]; (split; [|reflexivity]); split; try discriminate; try reflexivity.
      + intros (a & H & _). now apply A in H as (t & ? & _).
      + intros _ a H. now apply A in H as (t & ? & _).
  Qed.
  Lemma networks_checked rlp txn entries : decoded rlp = Done txn -> (forall name s, In (name, s) entries -> network_config name <> None) ->
    exists ok, check_networks keccak recover txn entries = Done ok /\ (ok = true <-> forall name s c, In (name, s) entries -> network_config name = Some c -> as_expected rlp c s).
  Proof.
    intros D. induction entries as [|[name s] r IH]; intros K; [exists true; split; [reflexivity|]; split; [intros _ ? ? ? []|reflexivity]|].
    destruct (network_config name) as [c|] eqn:N; [|exfalso; now apply (K name s (or_introl eq_refl))].
    destruct (one_network rlp name c s r txn D N) as (ok & R & E). rewrite E. destruct ok.
    - destruct IH as (b & E' & R'); [intros n' s' I; apply (K n' s'); now right|]. exists b. split; [exact E'|]. rewrite R'. split.
      + intros G n' s' c' [I|I] N'; [injection I as <- <-; rewrite N in N'; injection N' as <-; now apply R|now apply (G n')].
      + intros G n' s' c' I. apply G. now right.
    - exists false. split; [reflexivity|]. split; [discriminate|]. intros G. apply R. apply (G name); [now left|exact N].
  Qed.
  Theorem transaction_verdict rlp entries : (forall name s, In (name, s) entries -> network_config name <> None) ->
    (forall b, hex_denotes rlp b -> blen b < 2 ^ 64 /\ decode_tx b <> UB) ->
    exists ok, transaction_test keccak recover rlp entries = Done ok
      /\ (ok = true <-> forall name s c, In (name, s) entries -> network_config name = Some c -> as_expected rlp c s).
  Proof.
    intros K V. assert (D : exists txn, decoded rlp = Done txn).
    { unfold decoded. destruct (from_hex rlp) as [b|] eqn:H; [|now eexists]. apply from_hex_spec in H. destruct (V b H) as (B & T).
      destruct (decode_tx_guarded b (conj (hex_wf _ _ H) B)) as (F & U). destruct (decode_tx b) as [[t [|y q]]| | |]; [now eexists|now eexists|now eexists|now contradiction T|now contradiction F]. }
    destruct D as (txn & D). unfold transaction_test. rewrite D. cbn [obind]. now apply networks_checked.
  Qed.
End Tx.

(** The names, the revision of the blocks before block 5, that of the others, and the blocks of the ice age delay of 2020 and of the rescue of the DAO. *)
Definition network_table : list (string * N * N * option N * option N) :=
  [("Frontier", EVMC_FRONTIER, EVMC_FRONTIER, None, None); ("Homestead", EVMC_HOMESTEAD, EVMC_HOMESTEAD, None, None);
   ("EIP150", EVMC_TANGERINE_WHISTLE, EVMC_TANGERINE_WHISTLE, None, None); ("EIP158", EVMC_SPURIOUS_DRAGON, EVMC_SPURIOUS_DRAGON, None, None);
   ("Byzantium", EVMC_BYZANTIUM, EVMC_BYZANTIUM, None, None); ("Constantinople", EVMC_CONSTANTINOPLE, EVMC_CONSTANTINOPLE, None, None);
   ("ConstantinopleFix", EVMC_PETERSBURG, EVMC_PETERSBURG, None, None); ("Istanbul", EVMC_ISTANBUL, EVMC_ISTANBUL, None, None);
   ("Berlin", EVMC_BERLIN, EVMC_BERLIN, Some 0, None); ("London", EVMC_LONDON, EVMC_LONDON, Some 0, None);
   ("FrontierToHomesteadAt5", EVMC_FRONTIER, EVMC_HOMESTEAD, None, None); ("HomesteadToEIP150At5", EVMC_HOMESTEAD, EVMC_TANGERINE_WHISTLE, None, None);
   ("HomesteadToDaoAt5", EVMC_HOMESTEAD, EVMC_HOMESTEAD, None, Some 5); ("EIP158ToByzantiumAt5", EVMC_SPURIOUS_DRAGON, EVMC_BYZANTIUM, None, None);
   ("ByzantiumToConstantinopleFixAt5", EVMC_BYZANTIUM, EVMC_PETERSBURG, None, None); ("BerlinToLondonAt5", EVMC_BERLIN, EVMC_LONDON, Some 0, None);
   ("EIP2384", EVMC_ISTANBUL, EVMC_ISTANBUL, Some 0, None)]%string.

Definition ran (files : list (option (list ending))) : list (option (list (out status))) :=
  map (option_map (map (fun e => Done match e with Passes => kPassed | Fails => kFailed | Skips => kSkipped end))) files.
Lemma add_mod_r a b n : n <> 0 -> (a + b mod n) mod n = (a + b) mod n.
Proof. intros. now rewrite N.add_mod_idemp_r. Qed.
Lemma tests_ran l : forall r, exists r', run_tests (map (fun e => Done match e with Passes => kPassed | Fails => kFailed | Skips => kSkipped end) l) r = Done r'
  /\ failed r' mod 2 ^ 64 = (failed r + N.of_nat (count_occ ending_dec l Fails)) mod 2 ^ 64.
Proof.
  induction l as [|e l IH]; intros r; [exists r; split; [reflexivity|]; cbn; now rewrite N.add_0_r|].
  cbn [map run_tests obind]. destruct (IH (add_status r match e with Passes => kPassed | Fails => kFailed | Skips => kSkipped end)) as (r' & E & F). exists r'. split; [exact E|]. rewrite F.
  destruct e; cbn [add_status failed count_occ]; destruct (ending_dec _ _) as [Q|Q]; try discriminate Q; try (now contradiction Q); try reflexivity.
  rewrite N.add_mod_idemp_l by lia. f_equal. lia.
Qed.
Lemma files_ran files : forall r, exists r', run_files (ran files) r = Done r' /\ failed r' mod 2 ^ 64 = (failed r + failures files) mod 2 ^ 64.
Proof.
  induction files as [|f files IH]; intros r; [exists r; split; [reflexivity|]; cbn; now rewrite N.add_0_r|].
  assert (T : exists x, run_test_file (option_map (map (fun e => Done match e with Passes => kPassed | Fails => kFailed | Skips => kSkipped end)) f) = Done x
    /\ failed x mod 2 ^ 64 = N.of_nat (count_occ ending_dec (default [] f) Fails) mod 2 ^ 64).
  { destruct f as [l|]; cbn [option_map run_test_file default]; [|now eexists]. destruct (tests_ran l (mkResults 0 0 0)) as (x & E & F). exists x. split; [exact E|exact F]. }
  destruct T as (x & E & F). unfold ran. cbn [map run_files]. rewrite E. cbn [obind]. destruct (IH (add_results r x)) as (r' & E' & F'). exists r'. split; [exact E'|].
  rewrite F'. cbn [add_results failed]. unfold failures. cbn [map concat]. rewrite count_occ_app, Nat2N.inj_add.
  set (c := N.of_nat (count_occ ending_dec (default [] f) Fails)) in *. set (d := N.of_nat (count_occ _ _ _)).
  rewrite N.add_mod_idemp_l by lia. replace (failed r + failed x + d) with (failed x + (failed r + d)) by lia. replace (failed r + (c + d)) with (c + (failed r + d)) by lia.
  rewrite <- (N.add_mod_idemp_l (failed x)), F by lia. now rewrite N.add_mod_idemp_l by lia.
Qed.
Theorem status_is files : exit_status (ran files) = Done (Some (failures files mod 256)).
Proof.
  unfold exit_status. destruct (files_ran files (mkResults 0 0 0)) as (r & E & F). rewrite E. cbn [failed] in F. rewrite N.add_0_l in F.
  assert (M : forall x, x mod 2 ^ 64 mod 2 ^ 32 mod 256 = x mod 256 /\ x mod 2 ^ 32 mod 256 = x mod 256) by (intros x; split; lia).
  do 2 f_equal. rewrite (proj2 (M (failed r))), <- (proj1 (M (failed r))), F. apply M.
Qed.
Theorem status_small files : failures files < 256 -> exit_status (ran files) = Done (Some (failures files)).
Proof. intros H. rewrite status_is. now rewrite N.mod_small. Qed.
Lemma no_failure files : failures files = 0 <-> forall l, In (Some l) files -> ~ In Fails l.
Proof.
  unfold failures. split.
  - intros H l I J. assert (Q : In Fails (concat (map (default []) files))) by (apply in_concat; exists l; split; [apply in_map_iff; now exists (Some l)|exact J]). apply (count_occ_In ending_dec) in Q. lia.
  - intros H. assert (Q : ~ In Fails (concat (map (default []) files))). { intros J. apply in_concat in J as (l & I & J). apply in_map_iff in I as ([l'|] & <- & I); cbn in J; [now apply (H l')|easy]. }
    apply (count_occ_not_In ending_dec) in Q. now rewrite Q.
Qed.
Theorem status_partial files : failures files < 256 -> exists k, exit_status (ran files) = Done (Some k) /\ (k = 0 <-> forall l, In (Some l) files -> ~ In Fails l).
Proof. intros H. exists (failures files). split; [now apply status_small|apply no_failure]. Qed.
Theorem status_refuted : exists files, exit_status (ran files) = Done (Some 0) /\ (exists l, In (Some l) files /\ In Fails l) /\ forall l e, In (Some l) files -> In e l -> e = Fails.
Proof.
  exists [Some (repeat Fails 256)]. split; [vm_compute; reflexivity|]. split; [exists (repeat Fails 256); split; [now left|left; reflexivity]|].
  intros l e [Q|[]] I. assert (l = repeat Fails 256) as -> by congruence. exact (repeat_spec _ _ _ I).
Qed.
(** A test that throws ends the process, whatever the others do. *)
Lemma tests_throw l : forall r, (forall t, In t l -> t <> Undefined) -> In Throws l -> run_tests l r = Throws.
Proof. induction l as [|t l IH]; intros r U []; [subst; reflexivity|]. cbn [run_tests]. destruct t as [s| |]; cbn [obind]; [|reflexivity|now destruct (U Undefined (or_introl eq_refl))]. apply IH; [intros; apply U; now right|assumption]. Qed.
Lemma tests_fine l : forall r, (forall t, In t l -> t <> Undefined) -> run_tests l r <> Undefined.
Proof. induction l as [|t l IH]; intros r U; [easy|]. cbn [run_tests]. destruct t as [s| |]; cbn [obind]; [|easy|now destruct (U Undefined (or_introl eq_refl))]. apply IH. intros; apply U; now right. Qed.
Theorem status_throws files : (forall l t, In (Some l) files -> In t l -> t <> Undefined) -> (exists l, In (Some l) files /\ In Throws l) -> exit_status files = Done None.
Proof.
  intros U T. unfold exit_status. enough (E : forall r, run_files files r = Throws) by now rewrite E.
  induction files as [|f files IH]; intros r; [now destruct T as (l & [] & _)|]. cbn [run_files].
  destruct T as (l & [->|I] & J); [cbn [run_test_file]; rewrite tests_throw; [reflexivity|intros t Q; apply (U l); [now left|exact Q]|exact J]|].
  destruct (run_test_file f) as [x| |] eqn:E; cbn [obind]; [|reflexivity|].
  - apply IH; [intros l' t I' J'; apply (U l'); [now right|exact J']|now exists l].
  - exfalso. destruct f as [l'|]; [|discriminate]. cbn [run_test_file] in E. refine (tests_fine _ _ _ E). intros t Q. apply (U l'); [now left|exact Q].
Qed.
