(** Concrete difficulty tests. *)
From Coq Require Import Strings.String.
From Verif Require Import Base BaseFacts UtilModel UtilSpec UtilProofs TypesModel BlockModel ChainModel ChainSpec ChainProofs DbModel ConsensusModel ConsensusProofs ConsensusDiffModel ConsensusDiffProofs.
Open Scope list_scope.
Open Scope N_scope.

(** Readers of decimal numbers without a sign, for the examples. *)
Fixpoint digits (s : bytes) (x : N) : out N :=
  match s with [] => Done x | c :: r => if (48 <=? c) && (c <=? 57) then digits r (10 * x + (c - 48)) else Throws end.
Definition decimal (s : bytes) : out N := match s with [] => Throws | _ => digits s 0 end.
Definition decimal_z (s : bytes) : out Z := do x := decimal s in Done (Z.of_N x).
Definition homestead : chain_config := mkCfg 1 kNoProof (Some 0 :: repeat None 9) None None.
Definition frontier : chain_config := mkCfg 1 kNoProof (repeat None 10) None None.
Definition byzantium : chain_config := mkCfg 1 kNoProof ([Some 0; Some 0; Some 0; Some 0] ++ repeat None 6) None None.
(** 25 seconds after a parent of difficulty 2048000: 1 - 25 / 9 = -1 without uncles and 0 with them from Byzantium on. *)
Definition late_block (said : string) (uncles : option bytes) : json_difficulty :=
  mkJsonDifficulty (str "1000"%string) (str "2048000"%string) (str "1025"%string) (str "7"%string) (str said) uncles.
Definition empty_list_hex : bytes := str "0x1dcc4de8dec75d7aab85b567b6ccd41ad312451b948a7413f0a142fd40d49347"%string.
Definition other_hex : bytes := str "0x11"%string.
Lemma late_runs :
  difficulty_test decimal_z decimal (late_block "2047000" None) byzantium = Done kPassed /\ difficulty_test decimal_z decimal (late_block "2047000" (Some empty_list_hex)) byzantium = Done kPassed
  /\ difficulty_test decimal_z decimal (late_block "2048000" (Some other_hex)) byzantium = Done kPassed /\ difficulty_test decimal_z decimal (late_block "2047000" (Some other_hex)) byzantium = Done kFailed
  /\ difficulty_test decimal_z decimal (late_block "2047000" None) homestead = Done kPassed /\ difficulty_test decimal_z decimal (late_block "2047001" None) homestead = Done kFailed.
Proof. repeat (split; [vm_compute; reflexivity|]). vm_compute; reflexivity. Qed.
Lemma frontier_rules n : ~ rules_from frontier 1 n.
Proof.
  intros (r' & B & b & A & _). assert (r' = 1 \/ r' = 2 \/ r' = 3 \/ r' = 4 \/ r' = 5 \/ r' = 6 \/ r' = 7 \/ r' = 8 \/ r' = 9 \/ r' = 10) as K by lia.
  repeat (destruct K as [->|K]; [vm_compute in A; discriminate A|]). subst r'. vm_compute in A. discriminate A.
Qed.
Lemma byzantium_rules n : rules_from byzantium 4 n /\ ~ rules_from byzantium 5 n.
Proof.
  split; [exists 4; split; [lia|]; exists 0; split; [reflexivity|lia]|].
  intros (r' & B & b & A & _). assert (r' = 5 \/ r' = 6 \/ r' = 7 \/ r' = 8 \/ r' = 9 \/ r' = 10) as K by lia.
  repeat (destruct K as [->|K]; [vm_compute in A; discriminate A|]). subst r'. vm_compute in A. discriminate A.
Qed.
Lemma late_spec : spec_difficulty byzantium 7 (Z.of_N 1025 - Z.of_N 1000) (Z.of_N 2048000) true 2048000 /\ spec_difficulty byzantium 7 (Z.of_N 1025 - Z.of_N 1000) (Z.of_N 2048000) false 2047000.
Proof.
  destruct (byzantium_rules 7) as (R & R'). assert (M : forall b, cfg_muir_glacier byzantium = Some b -> 7 < b) by discriminate.
  pose proof (fun dt pd u => diff_byzantium byzantium 7 dt pd u 3000000 R (delay_byzantium byzantium 7 R' M)) as K.
  assert (E1 : spec_difficulty_of (spec_factor_byzantium true (Z.of_N 1025 - Z.of_N 1000)) (fake_number 3000000 (Z.of_N 7)) (Z.of_N 2048000) = 2048000%Z) by (vm_compute; reflexivity).
  assert (E2 : spec_difficulty_of (spec_factor_byzantium false (Z.of_N 1025 - Z.of_N 1000)) (fake_number 3000000 (Z.of_N 7)) (Z.of_N 2048000) = 2047000%Z) by (vm_compute; reflexivity).
  split; [rewrite <- E1|rewrite <- E2]; apply K.
Qed.
Lemma late_reads : decimal_z (str "1000"%string) = Done (Z.of_N 1000) /\ decimal_z (str "1025"%string) = Done (Z.of_N 1025) /\ decimal_z (str "7"%string) = Done (Z.of_N 7)
  /\ decimal (str "2048000"%string) = Done 2048000 /\ uncles_said (Some empty_list_hex) false /\ uncles_said (Some other_hex) true /\ uncles_said None false.
Proof.
  repeat (split; [vm_compute; reflexivity|]). split; [|split; [|reflexivity]].
  - exists kEmptyListHash. split; [apply from_hex_spec; vm_compute; reflexivity|]. split; intros H; [discriminate H|destruct (H eq_refl)].
  - exists [17]. split; [apply from_hex_spec; vm_compute; reflexivity|]. split; [|reflexivity]. intros _ Q. apply (f_equal (@List.length N)) in Q. vm_compute in Q. discriminate Q.
Qed.
(** A block dated before its parent: the difference of the timestamps wraps around, and the test asks for a difficulty that is too low. *)
Definition early_block (said : string) : json_difficulty := mkJsonDifficulty (str "1000"%string) (str "2048000"%string) (str "999"%string) (str "7"%string) (str said) None.
Lemma early_refuted : spec_difficulty frontier 7 (999 - 1000) 2048000 false 2049000
  /\ difficulty_test decimal_z decimal (early_block "2049000") frontier = Done kFailed /\ difficulty_test decimal_z decimal (early_block "2047000") frontier = Done kPassed.
Proof.
  split; [|split; vm_compute; reflexivity].
  assert (E : spec_difficulty_of (spec_factor_frontier (999 - 1000)) (Z.of_N 7) 2048000 = 2049000%Z) by (vm_compute; reflexivity).
  rewrite <- E. apply diff_frontier. apply frontier_rules.
Qed.
