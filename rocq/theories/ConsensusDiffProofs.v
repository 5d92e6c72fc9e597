(** Proofs about the difficulty tests of the consensus test runner. *)
From Verif Require Import Base BaseFacts UtilModel UtilSpec UtilProofs TypesModel BlockModel ChainModel ChainSpec ChainProofs DbModel ConsensusModel ConsensusProofs ConsensusDiffModel.
Open Scope list_scope.
Open Scope N_scope.

(** The parent has uncles: the file gives a hash of them, which is not that of the empty list. *)
Definition uncles_said (s : option bytes) (uncles : bool) : Prop :=
  match s with None => uncles = false | Some h => exists v, hex_denotes h v /\ (uncles = true <-> v <> kEmptyListHash) end.
Lemma as_uint64_small z : (0 <= z < 2 ^ 64)%Z -> Z.of_N (as_uint64 z) = z.
Proof. intros H. unfold as_uint64. rewrite Z.mod_small by exact H. lia. Qed.

Theorem difficulty_verdict (stoll : bytes -> out Z) (from_string : bytes -> out N) j config parent_time parent_difficulty time number said uncles d :
  stoll (jd_parent_timestamp j) = Done (Z.of_N parent_time) -> stoll (jd_timestamp j) = Done (Z.of_N time) -> stoll (jd_number j) = Done (Z.of_N number) ->
  from_string (jd_parent_difficulty j) = Done parent_difficulty -> from_string (jd_difficulty j) = Done said -> uncles_said (jd_parent_uncles j) uncles ->
  parent_time <= time < 2 ^ 63 -> number < 2 ^ 63 -> parent_difficulty < 2 ^ 256 ->
  spec_difficulty config number (Z.of_N time - Z.of_N parent_time) (Z.of_N parent_difficulty) uncles d -> (d < 2 ^ 256)%Z ->
  exists s, difficulty_test stoll from_string j config = Done s /\ (s = kPassed <-> Z.of_N said = d) /\ (s = kFailed <-> Z.of_N said <> d).
Proof.
  intros E1 E2 E3 E4 E5 U T N P S D. unfold difficulty_test. rewrite E1, E2, E3, E4, E5. cbn [obind].
  assert (X : match jd_parent_uncles j with Some s => do u := value (from_hex s) in Done (negb (bytes_eqb u kEmptyListHash)) | None => Done false end = Done uncles).
  { unfold uncles_said in U. destruct (jd_parent_uncles j) as [h|]; [|now subst]. destruct U as (v & Hv & K). rewrite (hex_value _ _ Hv). cbn [obind]. f_equal.
    destruct (bytes_eqb v kEmptyListHash) eqn:Q; cbn [negb].
    - apply bytes_eqb_eq in Q. destruct uncles; [|reflexivity]. now destruct (proj1 K eq_refl).
    - symmetry. apply K. intros ->. now rewrite (proj2 (bytes_eqb_eq kEmptyListHash kEmptyListHash) eq_refl) in Q. }
  rewrite X. cbn [obind]. eexists. split; [reflexivity|].
  assert (A : forall x, x < 2 ^ 63 -> as_uint64 (Z.of_N x) = x) by (intros x Hx; apply N2Z.inj, as_uint64_small; lia).
  rewrite !A by lia. assert (Q : Z.of_N (canonical_difficulty number time parent_difficulty parent_time uncles config) = d).
  { apply canonical_difficulty_spec; [unfold u64; lia|lia|exact P|exact S|exact D]. }
  set (x := canonical_difficulty number time parent_difficulty parent_time uncles config) in *. destruct (N.eqb_spec x said) as [C|C].
  - rewrite <- C, Q. split; split; intros H; try reflexivity; try discriminate H. now destruct H.
  - assert (Z.of_N said <> d) as W by (intros H; apply C, N2Z.inj; congruence). split; split; intros H; try discriminate H; try reflexivity; [now destruct W|exact W].
Qed.
