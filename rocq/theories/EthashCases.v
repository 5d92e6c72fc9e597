(** Header validation with the real hash function and the real proof of work; concrete cases for C71-C73. *)
From Verif Require Import Base BaseFacts RlpSpec RlpModel TxModel BlockModel BlockSpec ChainModel ChainSpec ChainProofs ChainProofs2 ChainLemmas.
From Verif Require Import KeccakSpec KeccakModel KeccakCases EthashSpec EthashModel EthashProofs EthashProofs2 EthashProofs3 EthashLemmas.
Local Opaque keccak_digest.

(** The seal of a header: proof of work over the hash of the header without mix hash and nonce. *)
Definition pow_seal (h : block_header) : Prop :=
  valid_pow (hd_number h) (keccak_digest 256 (encode_hdr h true)) (hd_mix_hash h) (be_to_N (hd_nonce h)) (hd_difficulty h).
Definition pow_ranges (h : block_header) : Prop :=
  hd_number h / EPOCH_LENGTH < 32640 /\ hash32 (hd_mix_hash h) /\ wf_bytes (hd_nonce h) /\ length (hd_nonce h) = 8%nat /\
  1 <= hd_difficulty h /\ hd_difficulty h < 2 ^ 256.

Lemma nonce_below b : wf_bytes b -> length b = 8%nat -> be_to_N b < 2 ^ 64.
Proof. intros W L. pose proof (be_to_N_bound b W) as B. unfold blen in B. rewrite L in B. exact B. Qed.

Lemma seal_sound h : pow_ranges h -> seal_ok (keccak_digest 256) pow_accepts h -> pow_seal h.
Proof.
  intros (R & M & Wn & Ln & D1 & D2) H. unfold seal_ok, hdr_hash in H. unfold pow_seal.
  apply pow_sound; try assumption; [split; [apply digest_wf|apply digest_length]|apply nonce_below; assumption].
Qed.
Lemma seal_complete h : pow_ranges h -> hd_difficulty h = 1 \/ ~ N.divide (hd_difficulty h) (2 ^ 256) ->
  pow_seal h -> seal_ok (keccak_digest 256) pow_accepts h.
Proof.
  intros (R & M & Wn & Ln & D1 & D2) C H. unfold seal_ok, hdr_hash. unfold pow_seal in H.
  apply pow_complete; try assumption; [split; [apply digest_wf|apply digest_length]|apply nonce_below; assumption].
Qed.

Lemma rules_mono c (seal seal' : block_header -> Prop) h parent : (seal h -> seal' h) ->
  all_hold (header_rules c seal h parent) -> all_hold (header_rules c seal' h parent).
Proof.
  intros Imp H. unfold all_hold, header_rules in *. apply Forall_app in H. destruct H as [H1 H2]. apply Forall_app. split; [exact H1|].
  destruct parent as [p|]; [|exact H2]. unfold header_rules_parent in *. repeat (apply Forall_cons_iff in H2; destruct H2 as [? H2]).
  repeat (apply Forall_cons; [assumption|]). apply Forall_cons; [auto|exact H2].
Qed.

Lemma header_sound h st c : cfg_ok c -> parent_ok c st h -> pow_ranges h ->
  validate_block_header (keccak_digest 256) pow_accepts h st c = Some ChainModel.kOk -> all_hold (header_rules c pow_seal h (get_parent st h)).
Proof.
  intros Hc Hp R E. apply header_verdict_ok in E; [|assumption|assumption]. eapply rules_mono; [|exact E]. apply seal_sound, R.
Qed.
Lemma header_complete h st c : cfg_ok c -> parent_ok c st h -> pow_ranges h ->
  hd_difficulty h = 1 \/ ~ N.divide (hd_difficulty h) (2 ^ 256) ->
  (validate_block_header (keccak_digest 256) pow_accepts h st c = Some ChainModel.kOk <-> all_hold (header_rules c pow_seal h (get_parent st h))).
Proof.
  intros Hc Hp R D. split; [apply header_sound; assumption|]. intros H. apply header_verdict_ok; [assumption|assumption|].
  eapply rules_mono; [|exact H]. apply seal_complete; assumption.
Qed.

(** Sample call: some hash is always accepted by the largest boundary. *)
Definition sample_call : pow_call := mkCall 12345678 (repeat 7 32) (repeat 9 32) 42 (repeat 255 32).
Lemma hash32_repeat b : b < 256 -> hash32 (repeat b 32).
Proof. intros L. split; [apply Forall_forall; intros x X; apply repeat_spec in X; subst x; exact L|apply repeat_length]. Qed.
Lemma sample_call_ok : call_ok sample_call.
Proof.
  split; [reflexivity|]. split; [apply hash32_repeat; reflexivity|]. split; [apply hash32_repeat; reflexivity|].
  split; [reflexivity|apply hash32_repeat; reflexivity].
Qed.
Lemma largest_boundary r : hash32 r -> be_to_N r <= be_to_N (repeat 255 32).
Proof. intros H. pose proof (hash32_below r H) as B. change (be_to_N (repeat 255 32)) with (2 ^ 256 - 1). lia. Qed.
(** For every header and nonce there is a mix hash that is accepted with the largest boundary. *)
Lemma some_accepted number header nonce : epoch_range (number / EPOCH_LENGTH) -> hash32 header -> nonce < 2 ^ 64 ->
  exists mix, pow_accepts number header mix nonce 1 = true.
Proof.
  intros R H Nn. set (e := number / EPOCH_LENGTH) in *.
  destruct (cache_items_ok e) as (nc & _ & C); [unfold epoch_range in R; change (2 ^ 15 - 2 ^ 7) with 32640 in R; change (2 ^ 21 - 2 ^ 7) with 2097024; lia|].
  destruct (dataset_items_ok e) as (nf & _ & F); [unfold epoch_range in R; change (2 ^ 15 - 2 ^ 7) with 32640 in R; change (2 ^ 16 - 2 ^ 7) with 65408; lia|].
  assert (B : block_hashimoto number header nonce (hashimoto_light nc nf (seed_hash (N.to_nat e)) header nonce)) by (exists nc, nf; auto).
  destruct (hashimoto_light nc nf (seed_hash (N.to_nat e)) header nonce) as [m r] eqn:E. exists m.
  assert (M : hash32 m).
  { destruct (create_ok e R) as (c & _ & K). pose proof (hash_ok e c header nonce K (proj1 H)) as Hm.
    rewrite (context_hashimoto e c _ _ K) in Hm. destruct K as (_ & _ & Kc & Kf & _).
    rewrite (largest_unique _ _ _ Kc C), (largest_unique _ _ _ Kf F), E in Hm. apply Hm. }
  apply pow_accepts_iff; try assumption; [lia|reflexivity|]. exists r. split; [exact B|]. rewrite N.div_1_r.
  pose proof (hash32_below r (result_below _ _ _ _ _ B)). lia.
Qed.
Lemma next_difficulty : 131073 = 1 \/ ~ N.divide 131073 (2 ^ 256).
Proof. right. intros D. apply N.mod_divide in D; [|discriminate]. revert D. vm_compute. discriminate. Qed.
Lemma min_difficulty_divides : N.divide 131072 (2 ^ 256).
Proof. exists (2 ^ 239). reflexivity. Qed.
Lemma seed_is_hash n : seed_n (keccak_digest 256) n = seed_hash (N.to_nat n).
Proof. reflexivity. Qed.
