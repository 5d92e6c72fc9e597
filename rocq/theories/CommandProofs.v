(** Proofs about the commands that run a stage. *)
From stdpp Require Import gmap.
From Verif Require Import Base BaseFacts RlpModel TypesModel DbTable DbModel DbSpec DbProofs DbCases EtlModel EtlSpec EtlLemmas BufferModel BufferCases UnwindModel UnwindProofs2 HashStateModel HashStateSpec HashStateProofs HashStateProofs2 HashStateCases IndexModel IndexSpec IndexLemmas IndexCases IndexWitness CommandModel CommandSpec.

Lemma clear_wf d t : wf_db d -> wf_db (clear_map d t).
Proof. intros W. apply set_table_wf; [exact W|]. destruct (multi t); constructor. Qed.
Lemma clears tables : forall d, wf_db d -> let d' := fold_left clear_map tables d in wf_db d' /\ (forall t, In t tables -> d' t = []) /\ (forall t, ~ In t tables -> d' t = d t).
Proof.
  induction tables as [|t0 l IH]; intros d W; cbn [fold_left]; [split; [exact W|]; split; [intros t []|reflexivity]|].
  destruct (IH (clear_map d t0) (clear_wf d t0 W)) as (A & B & C). split; [exact A|]. split.
  - intros t H. destruct (in_dec tbl_eq_dec t l) as [I|I]; [now apply B|]. rewrite (C t I). destruct H as [ -> |H]; [apply set_table_same|contradiction].
  - intros t H. rewrite C by (intros I; apply H; now right). apply set_table_other. intros E. apply H. now left.
Qed.
Lemma clear_done tables key d : wf_db d -> ~ In kSyncStageProgress tables -> is_known_stage key = true ->
  exists d1, set_stage_progress (fold_left clear_map tables d) key 0 = Done d1 /\ cleared tables key d d1.
Proof.
  intros W NI K. destruct (clears tables d W) as (A & B & C). set (d0 := fold_left clear_map tables d) in *.
  destruct (get_after_set d0 key 0 kSyncStageProgress key A eq_refl K ltac:(lia)) as (d1 & E & W1 & O & G). exists d1. split; [exact E|]. rewrite eqb_refl in G.
  split; [exact W1|]. split; [exact G|]. split; [intros t I; rewrite O by (intros ->; contradiction); now apply B|]. split; [intros t I N; rewrite O by exact N; now apply C|].
  intros other N. destruct (get_after_set d0 key 0 kSyncStageProgress other A eq_refl K ltac:(lia)) as (d2 & E2 & _ & _ & G2). assert (d2 = d1) as -> by (unfold set_stage_progress in E; congruence).
  destruct (eqb_spec key other); [congruence|]. unfold get_stage_progress in *. rewrite G2. apply get_other. now apply C.
Qed.

Lemma full_commits tables key stage d l s : wf_db d -> ~ In kSyncStageProgress tables -> is_known_stage key = true -> with_full true tables key stage d = Done (l, s) ->
  exists d1 rest, l = d1 :: rest /\ cleared tables key d d1
    /\ ((exists d2, rest = [d2] /\ s = 0%Z /\ stage d1 = Done (kStageSuccess, d2)) \/ (rest = [] /\ forall d2, stage d1 <> Done (kStageSuccess, d2))).
Proof.
  intros W NI K E. destruct (clear_done tables key d W NI K) as (d1 & S & C). unfold with_full in E. rewrite S in E. unfold run_stage in E. destruct (stage d1) as [[r d2]| |] eqn:R; cbn [obind] in E; try discriminate E.
  - destruct r; cbn [obind] in E; injection E as <- <-; exists d1.
    + exists [d2]. split; [reflexivity|]. split; [exact C|]. left. eauto.
    + exists []. split; [reflexivity|]. split; [exact C|]. right. split; [reflexivity|]. intros d3 H. rewrite R in H. discriminate H.
    + exists []. split; [reflexivity|]. split; [exact C|]. right. split; [reflexivity|]. intros d3 H. rewrite R in H. discriminate H.
  - injection E as <- <-. exists d1, []. split; [reflexivity|]. split; [exact C|]. right. split; [reflexivity|]. intros d3 H. rewrite R in H. discriminate H.
Qed.
Lemma full_success tables key stage d : wf_db d -> ~ In kSyncStageProgress tables -> is_known_stage key = true ->
  exists d1, cleared tables key d d1 /\ forall d2, stage d1 = Done (kStageSuccess, d2) -> with_full true tables key stage d = Done ([d1; d2], 0%Z).
Proof.
  intros W NI K. destruct (clear_done tables key d W NI K) as (d1 & S & C). exists d1. split; [exact C|]. intros d2 E. unfold with_full. rewrite S. unfold run_stage. now rewrite E.
Qed.
Lemma known_keys : is_known_stage kAccountHistoryKey = true /\ is_known_stage kStorageHistoryIndexKey = true /\ is_known_stage kLogIndexKey = true /\ is_known_stage kTxLookupKey = true /\ is_known_stage kHashStateKey = true.
Proof. repeat split; vm_compute; reflexivity. Qed.
Ltac not_in := intros X; cbn [In] in X; intuition discriminate.

(** ** history_index --full *)
Lemma history_full pick walk size_in_bytes bm_write bm_read : least_first pick -> some_order walk -> faithful size_in_bytes bm_write bm_read ->
  forall d, wf_db d -> account_change_set (d kPlainAccountChangeSet) ->
    (forall a (b : gset N), length a = 20%nat -> (forall n, n ∈ b -> account_changed d a n) -> size_in_bytes b <= 1950 /\ forall n, n ∈ b -> n < 2 ^ 32) ->
    (exists a, length a = 20%nat /\ account_changed d a 0) ->
    exists d1 d2 m, history_index pick walk size_in_bytes bm_write bm_read true false d = Done ([d1; d2], 0%Z) /\ wf_db d2 /\ get_stage_progress d2 kAccountHistoryKey = Done m
      /\ (exists a, length a = 20%nat /\ account_changed d a m) /\ (forall a n, account_changed d a n -> n <= m)
      /\ (forall a n, length a = 20%nat -> account_indexed bm_read d2 a n <-> account_changed d a n)
      /\ (forall k v, In (k, v) (d2 kAccountHistory) -> exists a, length a = 20%nat /\ k = open_chunk a)
      /\ (forall t, t <> kAccountHistory -> t <> kSyncStageProgress -> d1 t = d t /\ d2 t = d t).
Proof.
  intros P W F d Wd AC OC EX. destruct (full_success [kAccountHistory] kAccountHistoryKey (history_index_stage pick walk size_in_bytes bm_write bm_read false) d Wd ltac:(not_in) (proj1 known_keys)) as (d1 & C & K).
  destruct C as (W1 & G1 & E1 & O1 & _).
  assert (Same : forall t, t <> kAccountHistory -> t <> kSyncStageProgress -> d1 t = d t) by (intros t N1 N2; apply O1; [intros [X|[]]; congruence|exact N2]).
  assert (Empty : d1 kAccountHistory = []) by (apply E1; now left). pose proof (Same kPlainAccountChangeSet ltac:(discriminate) ltac:(discriminate)) as SC.
  assert (CH : forall a n, account_changed d1 a n <-> account_changed d a n) by (intros a n; unfold account_changed; now rewrite SC).
  assert (NI : forall a n, ~ account_indexed bm_read d1 a n) by (intros a n (v & I & _); rewrite Empty in I; destruct I).
  destruct (account_history_stage pick walk size_in_bytes bm_write bm_read P W F d1 0 W1 ltac:(lia) G1) as (d2 & m & S & W2 & G2 & M1 & M2 & IX & KE & OT).
  - now rewrite SC.
  - intros a b La H. apply (OC a b La). intros n I. destruct (H n I) as [X|X]; [now apply CH|now apply NI in X].
  - intros _. exact Empty.
  - destruct EX as (a & La & X). exists a. split; [exact La|now apply CH].
  - exists d1, d2, m. split; [apply K; exact S|]. split; [exact W2|]. split; [exact G2|]. split; [destruct M1 as (a & La & X); exists a; split; [exact La|now apply CH]|]. split; [intros a n X; apply (M2 a n); now apply CH|].
    split. { intros a n La. rewrite (IX a n La), CH. split; [intros [X|(_ & X)]; [now apply NI in X|exact X]|]. intros X. right. split; [lia|exact X]. }
    split. { intros k v I. destruct (decide (length (firstn 20 k) = 20%nat /\ k = open_chunk (firstn 20 k))) as [H|H]; [eauto|]. rewrite KE, Empty in I; [destruct I|]. intros a La ->. apply H. unfold open_chunk. rewrite <- La, firstn_app, firstn_all, Nat.sub_diag, firstn_O, app_nil_r. auto. }
    intros t N1 N2. split; [now apply Same|]. rewrite OT by assumption. now apply Same.
Qed.
(** ** The other indexes with --full: what was there is gone, and nothing is made *)
Lemma full_nothing keccak pick walk size_in_bytes bm_write bm_read cbor_bytes : some_order walk ->
  forall d, wf_db d -> (forall k v, In (k, v) (d kBlockBodies) -> length k = 40%nat) -> (forall k v, In (k, v) (d kLogs) -> length k = 12%nat) -> (forall k v, In (k, v) (d kPlainStorageChangeSet) -> length k = 36%nat) ->
    (exists d1 d2, tx_lookup keccak pick true d = Done ([d1; d2], 0%Z) /\ d1 kTxLookup = [] /\ d2 kTxLookup = [])
    /\ (exists d1 d2, log_index pick walk size_in_bytes bm_write bm_read cbor_bytes true d = Done ([d1; d2], 0%Z) /\ d2 kLogTopicIndex = [] /\ d2 kLogAddressIndex = [])
    /\ (exists d1 d2, history_index pick walk size_in_bytes bm_write bm_read true true d = Done ([d1; d2], 0%Z) /\ d2 kStorageHistory = []).
Proof.
  intros W d Wd H1 H2 H3. destruct known_keys as (K1 & K2 & K3 & K4 & K5). split; [|split].
  - destruct (full_success [kTxLookup] kTxLookupKey (stage_tx_lookup keccak pick) d Wd ltac:(not_in) K4) as (d1 & (W1 & G1 & E1 & O1 & _) & K). exists d1, d1.
    split; [apply K, (tx_lookup_nothing keccak pick d1 0 W1); [|exact G1]; rewrite O1 by (not_in || discriminate); exact H1|]. split; apply E1; now left.
  - destruct (full_success [kLogTopicIndex; kLogAddressIndex] kLogIndexKey (stage_log_index pick walk size_in_bytes bm_write bm_read cbor_bytes) d Wd ltac:(not_in) K3) as (d1 & (W1 & G1 & E1 & O1 & _) & K).
    destruct (log_index_nothing pick walk size_in_bytes bm_write bm_read W cbor_bytes d1 0 W1) as (d2 & S & _ & O2); [rewrite O1 by (not_in || discriminate); exact H2|exact G1|].
    exists d1, d2. split; [now apply K|]. split; rewrite O2 by discriminate; apply E1; [now left|right; now left].
  - destruct (full_success [kStorageHistory] kStorageHistoryIndexKey (history_index_stage pick walk size_in_bytes bm_write bm_read true) d Wd ltac:(not_in) K2) as (d1 & (W1 & G1 & E1 & O1 & _) & K). exists d1, d1.
    split; [apply K, (storage_history_nothing pick walk size_in_bytes bm_write bm_read W d1 0 W1); [|exact G1]; rewrite O1 by (not_in || discriminate); exact H3|]. apply E1; now left.
Qed.
(** ** The commits of a command with --full *)
Lemma commits_full keccak pick walk size_in_bytes bm_write bm_read cbor_bytes d l s : wf_db d ->
  (tx_lookup keccak pick true d = Done (l, s) -> exists d1 rest, l = d1 :: rest /\ cleared [kTxLookup] kTxLookupKey d d1 /\ ((rest = [] /\ s <> 0%Z) \/ (exists d2, rest = [d2] /\ s = 0%Z)))
  /\ (log_index pick walk size_in_bytes bm_write bm_read cbor_bytes true d = Done (l, s) -> exists d1 rest, l = d1 :: rest /\ cleared [kLogTopicIndex; kLogAddressIndex] kLogIndexKey d d1 /\ ((rest = [] /\ s <> 0%Z) \/ (exists d2, rest = [d2] /\ s = 0%Z)))
  /\ (history_index pick walk size_in_bytes bm_write bm_read true false d = Done (l, s) -> exists d1 rest, l = d1 :: rest /\ cleared [kAccountHistory] kAccountHistoryKey d d1 /\ ((rest = [] /\ s <> 0%Z) \/ (exists d2, rest = [d2] /\ s = 0%Z)))
  /\ (history_index pick walk size_in_bytes bm_write bm_read true true d = Done (l, s) -> exists d1 rest, l = d1 :: rest /\ cleared [kStorageHistory] kStorageHistoryIndexKey d d1 /\ ((rest = [] /\ s <> 0%Z) \/ (exists d2, rest = [d2] /\ s = 0%Z))).
Proof.
  intros W. destruct known_keys as (K1 & K2 & K3 & K4 & K5).
  assert (G : forall tables key stage, ~ In kSyncStageProgress tables -> is_known_stage key = true -> (forall d d', stage d <> Done (kStageBadBlockHash, d')) -> with_full true tables key stage d = Done (l, s) ->
    exists d1 rest, l = d1 :: rest /\ cleared tables key d d1 /\ ((rest = [] /\ s <> 0%Z) \/ (exists d2, rest = [d2] /\ s = 0%Z))).
  { intros tables key stage NI K NB E. destruct (clear_done tables key d W NI K) as (d1 & S & C). unfold with_full in E. rewrite S in E. unfold run_stage in E.
    destruct (stage d1) as [[r d2]| |] eqn:R; cbn [obind] in E; [destruct r; cbn [obind] in E| |discriminate E].
    - injection E as <- <-. exists d1, [d2]. split; [reflexivity|]. split; [exact C|]. right. eauto.
    - injection E as <- <-. exists d1, []. split; [reflexivity|]. split; [exact C|]. left. split; [reflexivity|discriminate].
    - now apply NB in R.
    - injection E as <- <-. exists d1, []. split; [reflexivity|]. split; [exact C|]. left. split; [reflexivity|discriminate]. }
  assert (Hh : forall b d d', history_index_stage pick walk size_in_bytes bm_write bm_read b d <> Done (kStageBadBlockHash, d')).
  { intros b e e' H. unfold history_index_stage in H.
    repeat match type of H with context [match ?x with Done _ => _ | Throws => _ | Undefined => _ end] => destruct x; cbn [obind] in H; try discriminate H | context [obind ?x _] => destruct x as [[]| |] || destruct x; cbn [obind] in H; try discriminate H | context [if ?x then _ else _] => destruct x end; discriminate H. }
  split; [|split; [|split]]; apply G; try assumption; try not_in; try apply Hh.
  - intros e e' H. unfold stage_tx_lookup in H. destruct (get_stage_progress e kTxLookupKey); cbn [obind] in H; try discriminate H. destruct (extract_lookups _ _ _ _) as [[es n]| |]; cbn [obind] in H; try discriminate H.
    destruct (_ =? 0); [discriminate H|]. destruct (load _ _ _) as [[x y]| |]; cbn [obind] in H; try discriminate H. destruct (put_entries _ _ _); cbn [obind] in H; discriminate H.
  - intros e e' H. unfold stage_log_index in H. destruct (get_stage_progress e kLogIndexKey); cbn [obind] in H; try discriminate H. destruct (extract_logs _ _ _ _ _ _) as [[es n]| |]; cbn [obind] in H; try discriminate H.
    destruct (load _ _ _) as [[x y]| |]; cbn [obind] in H; try discriminate H. destruct (load_indexes _ _ _ _ _ _ _); cbn [obind] in H; try discriminate H. destruct (load _ _ _) as [[x' y']| |]; cbn [obind] in H; try discriminate H.
    destruct (load_indexes _ _ _ _ _ _ _); cbn [obind] in H; discriminate H.
Qed.
Lemma bad_hash_silent d p h : wf_db d -> p < 2 ^ 64 -> get_stage_progress d kBlockHashesKey = Done p -> lookup (d kCanonicalHashes) (be_fixed 8 ((p + 1) mod 2 ^ 64)) = Some h -> length h <> 32%nat -> blockhashes d = Done ([], 0%Z).
Proof. intros W L G E N. unfold blockhashes. rewrite (block_hashes_nothing d p W L G), E. destruct (Nat.eqb_spec (length h) 32); [contradiction|reflexivity]. Qed.

(** ** hashstate *)
Lemma shapes_ext d e : shapes d -> (forall t, t <> kHashedAccounts -> t <> kHashedStorage -> t <> kContractCode -> t <> kSyncStageProgress -> e t = d t) -> shapes e.
Proof.
  intros S E. split; [rewrite E by discriminate; apply (sh_state d S)|rewrite E by discriminate; apply (sh_codes d S)|rewrite E by discriminate; apply (sh_acc_changes d S)|rewrite E by discriminate; apply (sh_st_changes d S)].
Qed.
Lemma hash_cleared d : wf_db d -> exists d1, set_stage_progress (clear_map (clear_map (clear_map d kHashedAccounts) kHashedStorage) kContractCode) kHashStateKey 0 = Done d1 /\ cleared hashed_tables kHashStateKey d d1
  /\ (forall t, t <> kHashedAccounts -> t <> kHashedStorage -> t <> kContractCode -> t <> kSyncStageProgress -> d1 t = d t).
Proof.
  intros W. destruct (clear_done hashed_tables kHashStateKey d W ltac:(unfold hashed_tables; not_in) (proj2 (proj2 (proj2 (proj2 known_keys))))) as (d1 & E & C). exists d1. split; [exact E|]. split; [exact C|].
  intros t N1 N2 N3 N4. apply C; [|exact N4]. intros [X|[X|[X|[]]]]; congruence.
Qed.
Lemma full_is_first keccak pick d d1 : set_stage_progress (clear_map (clear_map (clear_map d kHashedAccounts) kHashedStorage) kContractCode) kHashStateKey 0 = Done d1 -> get_stage_progress d1 kHashStateKey = Done 0 ->
  hashstate_body keccak pick true false false d = stage_hashstate keccak pick d1.
Proof. intros E G. unfold hashstate_body, stage_hashstate. cbn [orb]. rewrite E. cbn [obind]. rewrite G. cbn [obind]. change (0 =? 0) with true. cbn [negb orb]. reflexivity. Qed.
Lemma hashstate_full keccak pick : hash_length keccak -> least_first pick -> forall d, wf_db d -> shapes d -> collectable (d kPlainState) -> collectable (d kPlainContractCode) ->
  forall n l s, n < 2 ^ 64 -> get_stage_progress d kExecutionKey = Done n -> hashstate keccak pick true false false d = Done (l, s) ->
  (l = [] /\ s = (-5)%Z) \/ exists d', l = [d'] /\ s = 0%Z /\ accounts_hashed keccak d d' /\ codes_hashed keccak d d' /\ get_stage_progress d' kHashStateKey = Done n /\ wf_db d'
    /\ (forall k v, In (k, v) (d' kHashedStorage) -> length k = 72%nat) /\ (forall t, t <> kHashedAccounts -> t <> kHashedStorage -> t <> kContractCode -> t <> kSyncStageProgress -> d' t = d t).
Proof.
  intros Hk Pk d W Sh C1 C2 n l s Hn En E. destruct (hash_cleared d W) as (d1 & S & (W1 & G1 & E1 & _ & O1) & Same). unfold hashstate in E. rewrite (full_is_first keccak pick d d1 S G1) in E.
  destruct (stage_hashstate keccak pick d1) as [d'| |] eqn:R; try discriminate E; injection E as <- <-; [right|left; auto]. exists d'. split; [reflexivity|]. split; [reflexivity|].
  destruct (first_run keccak Hk pick Pk d1 W1 (shapes_ext d d1 Sh Same)) with (n := n) (d' := d') as (A & B & P & W' & L & O); try (apply E1; cbn; tauto); try assumption.
  - rewrite Same by discriminate. exact C1.
  - rewrite Same by discriminate. exact C2.
  - rewrite O1 by discriminate. exact En.
  - split; [intros k v; rewrite (A k v), Same by discriminate; reflexivity|]. split; [intros k v; rewrite (B k v), Same by discriminate; reflexivity|]. split; [exact P|]. split; [exact W'|]. split; [exact L|].
    intros t N1 N2 N3 N4. rewrite O by assumption. now apply Same.
Qed.
Lemma hashstate_full_completes keccak pick : hash_length keccak -> least_first pick -> forall d, wf_db d -> shapes d -> collectable (d kPlainState) -> collectable (d kPlainContractCode) ->
  forall n, get_stage_progress d kExecutionKey = Done n ->
  distinct_hashes keccak (fun a => length a = 20%nat /\ ((exists v, In (a, v) (d kPlainState)) \/ exists i v, In (a ++ i, v) (d kPlainContractCode))) ->
  (forall a v w, length a = 20%nat -> In (a, v) (d kPlainState) -> In (a, w) (d kPlainState) -> v = w) ->
  (forall k v k' v', length k = 28%nat -> length k' = 28%nat -> In (k, v) (d kPlainState) -> In (k', v') (d kPlainState) -> skipn 20 k = skipn 20 k' -> firstn 20 (keccak (firstn 20 k)) = firstn 20 (keccak (firstn 20 k')) -> k = k' /\ v = v') ->
  exists d', hashstate keccak pick true false false d = Done ([d'], 0%Z).
Proof.
  intros Hk Pk d W Sh C1 C2 n En D1 D2 D3. destruct (hash_cleared d W) as (d1 & S & (W1 & G1 & E1 & _ & O1) & Same).
  assert (P : d1 kPlainState = d kPlainState) by (apply Same; discriminate). assert (Q : d1 kPlainContractCode = d kPlainContractCode) by (apply Same; discriminate).
  destruct (first_completes keccak Hk pick Pk d1 W1 (shapes_ext d d1 Sh Same)) with (n := n) as (d' & R); try (apply E1; cbn; tauto); rewrite ?P, ?Q; try assumption; [rewrite O1 by discriminate; exact En|].
  exists d'. unfold hashstate. now rewrite (full_is_first keccak pick d d1 S G1), R.
Qed.
Lemma hashstate_reset keccak pick full incrementally d : wf_db d -> exists d', hashstate keccak pick full incrementally true d = Done ([d'], 0%Z) /\ cleared hashed_tables kHashStateKey d d'.
Proof.
  intros W. destruct (hash_cleared d W) as (d1 & S & C & _). exists d1. split; [|exact C]. unfold hashstate, hashstate_body. rewrite orb_true_r, S. reflexivity.
Qed.
Lemma promote_nothing keccak o d p : get_stage_progress d kHashStateKey = Done p -> d (fst (tables_for_promote o)) = [] -> promote keccak o d = Done d.
Proof. intros G E. unfold promote. rewrite G. cbn [obind]. rewrite E. reflexivity. Qed.
Lemma hashstate_increment keccak pick d n : wf_db d -> n < 2 ^ 64 -> get_stage_progress d kExecutionKey = Done n -> d kPlainAccountChangeSet = [] -> d kPlainStorageChangeSet = [] ->
  exists d', hashstate keccak pick true true false d = Done ([d'], 0%Z) /\ d' kHashedAccounts = [] /\ d' kHashedStorage = [] /\ d' kContractCode = [] /\ get_stage_progress d' kHashStateKey = Done n.
Proof.
  intros W Hn En A B. destruct (hash_cleared d W) as (d1 & S & (W1 & G1 & E1 & _ & O1) & Same). unfold hashstate, hashstate_body. cbn [orb]. rewrite S. cbn [obind]. rewrite G1. cbn [obind]. rewrite orb_true_r.
  rewrite (promote_nothing keccak HashAccount d1 0 G1) by (cbn [tables_for_promote fst]; rewrite Same by discriminate; assumption). cbn [obind].
  rewrite (promote_nothing keccak HashStorage d1 0 G1) by (cbn [tables_for_promote fst]; rewrite Same by discriminate; assumption). cbn [obind].
  rewrite (promote_nothing keccak Code d1 0 G1) by (cbn [tables_for_promote fst]; rewrite Same by discriminate; assumption). cbn [obind].
  rewrite (O1 kExecutionKey) by discriminate. rewrite En. cbn [obind].
  destruct (get_after_set d1 kHashStateKey n kSyncStageProgress kHashStateKey W1 eq_refl (proj2 (proj2 (proj2 (proj2 known_keys)))) Hn) as (d2 & E2 & W2 & O2 & G2). rewrite eqb_refl in G2.
  unfold set_stage_progress. rewrite E2. exists d2. split; [reflexivity|]. rewrite !O2 by discriminate. split; [apply E1; cbn; tauto|]. split; [apply E1; cbn; tauto|]. split; [apply E1; cbn; tauto|exact G2].
Qed.
