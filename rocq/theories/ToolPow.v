(** The command that checks the proof of work. *)
From Verif Require Import Base BaseFacts RlpSpec RlpModel RlpProofs BlockModel BlockSpec BlockProofs CodecLemmas UtilModel UtilProofs DbTable DbModel DbSpec DbProofs DbBlockProofs DbCases IndexModel ToolModel ToolSpec ToolProofs.
From Verif Require Import KeccakSpec KeccakCases EthashSpec EthashModel EthashProofs2 EthashProofs3 EthashLemmas EthashCases.

Notation keccak := (keccak_digest 256).
Lemma seal_hash32 h : hash32 (keccak (encode_hdr h true)).
Proof. split; [apply digest_wf|apply digest_length]. Qed.
(** The result of the check of one header. *)
Lemma check_seal_ok c h n : context_of (n / EPOCH_LENGTH) c -> pow_ranges h -> hd_number h = n ->
  exists r, check_seal keccak c h n = Done r /\ (r = None -> pow_seal h) /\
    (forall x, r = Some x -> (x = AboveTarget n \/ x = WrongMixHash n) /\ (hd_difficulty h = 1 \/ ~ N.divide (hd_difficulty h) (2 ^ 256) -> ~ pow_seal h)).
Proof.
  intros K (R & M & Wn & Nl & D1 & D2) En. unfold check_seal. set (header := keccak (encode_hdr h true)). set (nonce := be_to_N (hd_nonce h)).
  pose proof (seal_hash32 h) as Hh. fold header in Hh. pose proof (hash_ok _ c header nonce K (proj1 Hh)) as P.
  pose proof (context_hashimoto _ c header nonce K) as X. destruct (hashimoto _ _ header nonce) as [m r] eqn:Eh. destruct P as (-> & Hm & Hr). cbn [from_option obind].
  assert (B : block_hashimoto n header nonce (m, r)).
  { destruct K as (_ & _ & Kc & Kf & _). do 2 eexists. split; [exact Kc|]. split; [exact Kf|]. exact X. }
  destruct (boundary_value _ D1 D2) as (Bv & Bh). rewrite is_less_or_equal_ok by assumption. rewrite Bv.
  assert (Q : hd_difficulty h = 1 \/ ~ N.divide (hd_difficulty h) (2 ^ 256) -> pow_seal h -> m = hd_mix_hash h /\ be_to_N r <= (2 ^ 256 - 1) / hd_difficulty h).
  { intros C (r' & B' & Le). fold header nonce in B'. rewrite En in B'. pose proof (hashimoto_unique _ _ _ _ _ B B') as E. apply pair_equal_spec in E as (-> & ->). split; [reflexivity|].
    pose proof (hash32_below _ Hr) as Lr.
    destruct (N.eq_dec (hd_difficulty h) 1) as [E1|NE]; [rewrite E1, N.div_1_r; lia|]. destruct C as [C|C]; [contradiction|]. rewrite quotient_eq by (try exact C; lia). exact Le. }
  destruct (N.leb_spec (be_to_N r) ((2 ^ 256 - 1) / hd_difficulty h)) as [Le|Gt]; cbn [negb].
  - destruct (eqb_spec m (hd_mix_hash h)) as [Em|Nm]; cbn [negb].
    + exists None. split; [reflexivity|]. split; [|discriminate]. intros _. exists r. fold header nonce. rewrite En, <- Em. split; [exact B|]. eapply N.le_trans; [exact Le|]. apply quotient_le. lia.
    + eexists. split; [reflexivity|]. split; [discriminate|]. intros x [= <-]. split; [now right|]. intros C Y. exact (Nm (proj1 (Q C Y))).
  - eexists. split; [reflexivity|]. split; [discriminate|]. intros x [= <-]. split; [now left|]. intros C Y. pose proof (proj2 (Q C Y)). lia.
Qed.
Lemma canonical_header_ok d n h : wf_db d -> canonical_block d n h -> canonical_header d n = Done h.
Proof.
  intros W [Hh (hash & Lh & Ic & Ih)]. unfold canonical_header, block_key. rewrite (proj2 (lookup_spec (d kCanonicalHashes) (be_fixed 8 n) hash (wf_single _ kCanonicalHashes W eq_refl)) Ic).
  unfold read_header, block_key_hash, to_bytes32. rewrite to_fixed_long by lia. rewrite firstn_all2 by lia.
  rewrite (proj2 (lookup_spec (d kHeaders) _ _ (wf_single _ kHeaders W eq_refl)) Ih). rewrite <- (app_nil_r (RLP _)), decode_hdr_rt by apply Hh. reflexivity.
Qed.
Lemma epoch_for_ok c n e : context_of e c -> n / EPOCH_LENGTH < 32640 -> exists c', epoch_for c n = Done c' /\ context_of (n / EPOCH_LENGTH) c'.
Proof.
  intros K R. unfold epoch_for. change epoch_length with EPOCH_LENGTH. destruct (N.eqb_spec (ec_epoch_number c) (n / EPOCH_LENGTH)) as [E|NE]; cbn [negb].
  - exists c. split; [reflexivity|]. rewrite <- E, (proj1 K). exact K.
  - destruct (create_ok (n / EPOCH_LENGTH) R) as (c' & -> & K'). exists c'. auto.
Qed.

Section Range.
  Variables (d : database) (from last : N) (hs : N -> block_header).
  Hypothesis W : wf_db d.
  Hypothesis Hlast : last / EPOCH_LENGTH < 32640.
  Hypothesis H : forall n, from <= n -> n <= last -> canonical_block d n (hs n) /\ hd_number (hs n) = n /\ pow_ranges (hs n).
  (** What the command is to report on the blocks from [n] on. *)
  Definition verdict (n : N) (r : option pow_report) : Prop :=
    match r with
    | None => forall m, n <= m -> m <= last -> pow_seal (hs m)
    | Some x => exists k, (x = AboveTarget k \/ x = WrongMixHash k) /\ n <= k /\ k <= last /\ (forall m, n <= m -> m < k -> pow_seal (hs m)) /\
                (hd_difficulty (hs k) = 1 \/ ~ N.divide (hd_difficulty (hs k)) (2 ^ 256) -> ~ pow_seal (hs k))
    end.
  Lemma pow_loop_ok fuel : forall c e n, context_of e c -> from <= n -> (N.to_nat (last + 1 - n) <= fuel)%nat ->
    exists r, pow_loop keccak fuel d c n last = Some (Done r) /\ verdict n r.
  Proof.
    assert (Ll : last < 2 ^ 32 - 1).
    { pose proof (N.div_mod last EPOCH_LENGTH ltac:(discriminate)) as D. pose proof (N.mod_lt last EPOCH_LENGTH ltac:(discriminate)) as D2.
      change EPOCH_LENGTH with 30000 in *. change (2 ^ 32 - 1) with 4294967295. lia. }
    induction fuel as [|fuel IH]; intros c e n K Lf F.
    - assert (last < n) by lia. exists None. cbn [pow_loop]. destruct (N.leb_spec n last); [lia|]. split; [reflexivity|]. intros m M1 M2. lia.
    - cbn [pow_loop]. destruct (N.leb_spec n last) as [L|G]; [|exists None; split; [reflexivity|intros m M1 M2; lia]].
      destruct (H n Lf L) as (Hc & Hn & Hr).
      assert (Rn : n / EPOCH_LENGTH < 32640) by (eapply N.le_lt_trans; [apply N.div_le_mono; [discriminate|exact L]|exact Hlast]).
      destruct (epoch_for_ok c n e K Rn) as (c' & -> & K'). cbn [obind]. rewrite (canonical_header_ok d n _ W Hc). cbn [obind].
      destruct (check_seal_ok c' (hs n) n K' Hr Hn) as (r & -> & R1 & R2). cbn [obind]. destruct r as [x|].
      + exists (Some x). split; [reflexivity|]. destruct (R2 x eq_refl) as (A & B). exists n. split; [exact A|]. split; [lia|]. split; [exact L|]. split; [intros m M1 M2; lia|exact B].
      + rewrite N.mod_small by (change (2 ^ 32) with 4294967296; change (2 ^ 32 - 1) with 4294967295 in Ll; lia).
        destruct (IH c' _ (n + 1) K') as (r & E & V); [lia|lia|]. exists r. split; [exact E|]. specialize (R1 eq_refl).
        assert (S : forall m, n <= m -> m = n \/ n + 1 <= m) by (intros; lia). destruct r as [x|]; cbn [verdict] in *.
        * destruct V as (k & A & B1 & B2 & B3 & B4). exists k. split; [exact A|]. split; [lia|]. split; [exact B2|]. split; [|exact B4].
          intros m M1 M2. destruct (S m M1) as [->|M]; [exact R1|now apply B3].
        * intros m M1 M2. destruct (S m M1) as [->|M]; [exact R1|now apply V].
  Qed.
End Range.

Lemma check_pow_ok d from to progress hs fuel : wf_db d -> get_stage_progress d kSendersKey = Done progress -> progress < 2 ^ 32 -> 1 <= from ->
  from / EPOCH_LENGTH < 32640 -> N.min to progress / EPOCH_LENGTH < 32640 ->
  (forall n, from <= n -> n <= N.min to progress -> canonical_block d n (hs n) /\ hd_number (hs n) = n /\ pow_ranges (hs n)) ->
  (N.to_nat (N.min to progress + 1 - from) <= fuel)%nat ->
  exists r, check_pow keccak fuel d from to = Some (Done r) /\ verdict (N.min to progress) hs from r.
Proof.
  intros W Hp Lp L1 Rf Rl H F. unfold check_pow. rewrite Hp. cbv zeta. destruct (N.eqb_spec from 0) as [E|_]; [lia|]. rewrite (N.mod_small progress) by exact Lp.
  change epoch_length with EPOCH_LENGTH. destruct (create_ok _ Rf) as (c & -> & K). cbn [from_option obind].
  apply (pow_loop_ok d from _ hs W Rl H fuel c _ from K); [lia|exact F].
Qed.
(** A failed check is not seen in the exit status. *)
Lemma check_pow_status_zero d from to progress hs fuel : wf_db d -> get_stage_progress d kSendersKey = Done progress -> progress < 2 ^ 32 -> 1 <= from ->
  from / EPOCH_LENGTH < 32640 -> N.min to progress / EPOCH_LENGTH < 32640 ->
  (forall n, from <= n -> n <= N.min to progress -> canonical_block d n (hs n) /\ hd_number (hs n) = n /\ pow_ranges (hs n)) ->
  (N.to_nat (N.min to progress + 1 - from) <= fuel)%nat -> (exists n, from <= n /\ n <= N.min to progress /\ ~ pow_seal (hs n)) ->
  exists r x, check_pow keccak fuel d from to = Some r /\ r = Done (Some x) /\ check_pow_status r = Some 0.
Proof.
  intros W Hp Lp L1 Rf Rl H F (n & N1 & N2 & N3). destruct (check_pow_ok d from to progress hs fuel W Hp Lp L1 Rf Rl H F) as (r & E & V). destruct r as [x|].
  - exists (Done (Some x)), x. auto.
  - exfalso. exact (N3 (V n N1 N2)).
Qed.
(** From height 2^32 on only the low 32 bits of the height are used. *)
Lemma check_pow_high d from to k fuel : get_stage_progress d kSendersKey = Done (2 ^ 32 * k) -> 1 <= from -> from / EPOCH_LENGTH < 32640 ->
  check_pow keccak fuel d from to = Some (Done None).
Proof.
  intros Hp L1 Rf. unfold check_pow. rewrite Hp. cbv zeta. destruct (N.eqb_spec from 0) as [E|_]; [lia|].
  rewrite (N.mul_comm (2 ^ 32)), N.mod_mul by discriminate. rewrite N.min_0_r. change epoch_length with EPOCH_LENGTH. destruct (create_ok _ Rf) as (c & -> & K). cbn [from_option obind].
  destruct fuel; cbn [pow_loop]; (destruct (N.leb_spec from 0); [lia|reflexivity]).
Qed.
