(** Proofs about the database layer: keys, stages, versions, modes. *)
From Verif Require Import Base BaseFacts RlpSpec RlpModel RlpProofs TxModel TxSpec BlockModel BlockSpec DbTable DbModel DbSpec.

(** ** Tables of a database *)
Lemma set_table_same d t x : set_table d t x t = x.
Proof. unfold set_table. destruct (tbl_eq_dec t t); congruence. Qed.
Lemma set_table_other d t x t' : t' <> t -> set_table d t x t' = d t'.
Proof. unfold set_table. destruct (tbl_eq_dec t t'); congruence. Qed.
Lemma put_wf d t k v : wf_db d -> wf_db (put d t k v).
Proof.
  intros H t'. unfold put. destruct (tbl_eq_dec t' t) as [ -> |N]; [|rewrite set_table_other by exact N; apply H]. rewrite set_table_same. specialize (H t). destruct (multi t); [now apply put_dup_ordered|now apply upsert_ordered].
Qed.
Lemma put_other d t k v t' : t' <> t -> put d t k v t' = d t'.
Proof. intros N. unfold put. now apply set_table_other. Qed.
Lemma wf_single d t : wf_db d -> multi t = false -> ordered (d t).
Proof. intros H E. specialize (H t). now rewrite E in H. Qed.
Lemma wf_multi d t : wf_db d -> multi t = true -> dup_ordered (d t).
Proof. intros H E. specialize (H t). now rewrite E in H. Qed.
Lemma lookup_put d t k v k' : wf_db d -> multi t = false -> lookup (put d t k v t) k' = if bytes_eqb k' k then Some v else lookup (d t) k'.
Proof. intros H E. unfold put. rewrite set_table_same, E. apply lookup_upsert. now apply wf_single. Qed.

(** ** Keys *)
Lemma lex_app a b c d : length a = length b -> lex_lt (a ++ c) (b ++ d) = true <-> lex_lt a b = true \/ (a = b /\ lex_lt c d = true).
Proof.
  intros L. destruct (eqb_spec a b) as [ -> |N].
  - rewrite lex_lt_app_common, lex_lt_irrefl. intuition congruence.
  - rewrite lex_lt_app_l by assumption. intuition.
Qed.
Lemma app_parts {A} (a b c d : list A) : length a = length b -> a ++ c = b ++ d -> a = b /\ c = d.
Proof. revert b. induction a as [|x a IH]; intros [|y b] L E; try discriminate; [auto|]. cbn in *. injection E as <- E. injection L as L. destruct (IH b L E) as (-> & ->). auto. Qed.
Lemma be8_lt a b : a < 2 ^ 64 -> b < 2 ^ 64 -> lex_lt (be_fixed 8 a) (be_fixed 8 b) = true <-> a < b.
Proof. intros Ha Hb. rewrite lex_lt_be_fixed by assumption. apply N.ltb_lt. Qed.
Lemma be4_lt a b : a < 2 ^ 32 -> b < 2 ^ 32 -> lex_lt (be_fixed 4 a) (be_fixed 4 b) = true <-> a < b.
Proof. intros Ha Hb. rewrite lex_lt_be_fixed by assumption. apply N.ltb_lt. Qed.
Lemma be8_inj a b : a < 2 ^ 64 -> b < 2 ^ 64 -> be_fixed 8 a = be_fixed 8 b -> a = b.
Proof. intros Ha Hb E. apply (f_equal be_to_N) in E. now rewrite !be_to_N_be_fixed_small in E by assumption. Qed.
Lemma be4_inj a b : a < 2 ^ 32 -> b < 2 ^ 32 -> be_fixed 4 a = be_fixed 4 b -> a = b.
Proof. intros Ha Hb E. apply (f_equal be_to_N) in E. now rewrite !be_to_N_be_fixed_small in E by assumption. Qed.
Lemma be8_eq a b : a < 2 ^ 64 -> b < 2 ^ 64 -> be_fixed 8 a = be_fixed 8 b <-> a = b.
Proof. intros Ha Hb. split; [now apply be8_inj|congruence]. Qed.

Lemma block_key_lt a b : a < 2 ^ 64 -> b < 2 ^ 64 -> lex_lt (block_key a) (block_key b) = true <-> a < b.
Proof. apply be8_lt. Qed.
Lemma block_key_hash_lt a b h g : a < 2 ^ 64 -> b < 2 ^ 64 -> lex_lt (block_key_hash a h) (block_key_hash b g) = true <-> a < b \/ (a = b /\ lex_lt h g = true).
Proof. intros Ha Hb. unfold block_key_hash. rewrite lex_app by now rewrite !be_fixed_length. now rewrite be8_lt, be8_eq. Qed.
Lemma storage_prefix_lt a b i j : length a = length b -> i < 2 ^ 64 -> j < 2 ^ 64 -> lex_lt (storage_prefix a i) (storage_prefix b j) = true <-> lex_lt a b = true \/ (a = b /\ i < j).
Proof. intros L Hi Hj. unfold storage_prefix. rewrite lex_app by exact L. now rewrite be8_lt. Qed.
Lemma storage_change_key_lt n m a b i j : n < 2 ^ 64 -> m < 2 ^ 64 -> length a = length b -> i < 2 ^ 64 -> j < 2 ^ 64 ->
  lex_lt (storage_change_key n a i) (storage_change_key m b j) = true <-> n < m \/ (n = m /\ (lex_lt a b = true \/ (a = b /\ i < j))).
Proof. intros Hn Hm L Hi Hj. unfold storage_change_key. rewrite lex_app by now rewrite !be_fixed_length. rewrite lex_app by exact L. now rewrite !be8_lt, be8_eq. Qed.
Lemma account_history_key_lt a b n m : length a = length b -> n < 2 ^ 64 -> m < 2 ^ 64 -> lex_lt (account_history_key a n) (account_history_key b m) = true <-> lex_lt a b = true \/ (a = b /\ n < m).
Proof. exact (storage_prefix_lt a b n m). Qed.
Lemma storage_history_key_lt a b x y n m : length a = length b -> length x = length y -> n < 2 ^ 64 -> m < 2 ^ 64 ->
  lex_lt (storage_history_key a x n) (storage_history_key b y m) = true <-> lex_lt a b = true \/ (a = b /\ (lex_lt x y = true \/ (x = y /\ n < m))).
Proof. intros L L2 Hn Hm. unfold storage_history_key. rewrite lex_app by exact L. rewrite lex_app by exact L2. now rewrite be8_lt. Qed.
Lemma log_key_lt n m i j : n < 2 ^ 64 -> m < 2 ^ 64 -> i < 2 ^ 32 -> j < 2 ^ 32 -> lex_lt (log_key n i) (log_key m j) = true <-> n < m \/ (n = m /\ i < j).
Proof. intros Hn Hm Hi Hj. unfold log_key. rewrite lex_app by now rewrite !be_fixed_length. now rewrite be8_lt, be4_lt, be8_eq. Qed.

Lemma keys_injective :
  (forall a b, a < 2 ^ 64 -> b < 2 ^ 64 -> block_key a = block_key b -> a = b)
  /\ (forall a b h g, a < 2 ^ 64 -> b < 2 ^ 64 -> block_key_hash a h = block_key_hash b g -> a = b /\ h = g)
  /\ (forall a b i j, length a = length b -> i < 2 ^ 64 -> j < 2 ^ 64 -> storage_prefix a i = storage_prefix b j -> a = b /\ i = j)
  /\ (forall n m a b i j, n < 2 ^ 64 -> m < 2 ^ 64 -> length a = length b -> i < 2 ^ 64 -> j < 2 ^ 64 -> storage_change_key n a i = storage_change_key m b j -> n = m /\ a = b /\ i = j)
  /\ (forall a b n m, length a = length b -> n < 2 ^ 64 -> m < 2 ^ 64 -> account_history_key a n = account_history_key b m -> a = b /\ n = m)
  /\ (forall a b x y n m, length a = length b -> length x = length y -> n < 2 ^ 64 -> m < 2 ^ 64 -> storage_history_key a x n = storage_history_key b y m -> a = b /\ x = y /\ n = m)
  /\ (forall n m i j, n < 2 ^ 64 -> m < 2 ^ 64 -> i < 2 ^ 32 -> j < 2 ^ 32 -> log_key n i = log_key m j -> n = m /\ i = j).
Proof.
  assert (L8 : forall a b, length (be_fixed 8 a) = length (be_fixed 8 b)) by (intros; now rewrite !be_fixed_length).
  split; [exact be8_inj|]. split; [intros a b h g Ha Hb E; apply app_parts in E as (E & ->); [|apply L8]; apply be8_inj in E; auto|].
  split; [intros a b i j L Hi Hj E; apply app_parts in E as (-> & E); [|exact L]; apply be8_inj in E; auto|].
  split; [intros n m a b i j Hn Hm L Hi Hj E; apply app_parts in E as (E & E2); [|apply L8]; apply app_parts in E2 as (-> & E2); [|exact L]; apply be8_inj in E; apply be8_inj in E2; auto|].
  split; [intros a b n m L Hi Hj E; apply app_parts in E as (-> & E); [|exact L]; apply be8_inj in E; auto|].
  split; [intros a b x y n m L L2 Hn Hm E; apply app_parts in E as (-> & E); [|exact L]; apply app_parts in E as (-> & E); [|exact L2]; apply be8_inj in E; auto|].
  intros n m i j Hn Hm Hi Hj E. apply app_parts in E as (E & E2); [|apply L8]. apply be8_inj in E; [|assumption|assumption]. apply be4_inj in E2; auto.
Qed.

Lemma starts_with_spec v p : starts_with v p = true <-> exists s, v = p ++ s.
Proof.
  revert v. induction p as [|a p IH]; intros v; [destruct v; cbn; split; eauto|]. destruct v as [|b v]; cbn [starts_with]; [split; [discriminate|intros (s & E); discriminate]|].
  rewrite andb_true_iff, IH, N.eqb_eq. split; [intros (-> & s & ->); now exists s|]. intros (s & E). injection E as -> ->. eauto.
Qed.
Lemma block_scan n m a i : n < 2 ^ 64 -> m < 2 ^ 64 -> starts_with (storage_change_key n a i) (block_key m) = true <-> n = m.
Proof.
  intros Hn Hm. rewrite starts_with_spec. unfold storage_change_key, block_key. split.
  - intros (s & E). apply app_parts in E as (E & _); [now apply be8_inj|now rewrite !be_fixed_length].
  - intros ->. eauto.
Qed.

(** Reading by a prefix of the value. *)
Lemma lex_prefix_ge p s : lex_lt (p ++ s) p = false.
Proof. rewrite <- (app_nil_r p) at 2. rewrite lex_lt_app_common. now destruct s. Qed.
Lemma lex_between p x s : lex_lt x p = false -> lex_lt (p ++ s) x = false -> exists s', x = p ++ s'.
Proof.
  revert x. induction p as [|a p IH]; intros x H1 H2; [exists x; reflexivity|]. destruct x as [|b x]; [discriminate|]. cbn [lex_lt app] in H1, H2.
  destruct (N.ltb_spec b a); [discriminate|]. destruct (N.ltb_spec a b).
  - discriminate.
  - assert (a = b) by lia. subst b. destruct (IH x H1 H2) as (s' & ->). now exists s'.
Qed.
Lemma find_value_suffix_spec t k p s : dup_ordered t ->
  find_value_suffix t k p = Some s <-> In (k, p ++ s) t /\ (forall s', In (k, p ++ s') t -> s' = s \/ lex_lt s s' = true).
Proof.
  intros H. unfold find_value_suffix. destruct (lower_bound_multivalue_spec t k p H) as [(E & X)|(pre & w & r & E & Es & L & X)].
  - rewrite E. split; [discriminate|]. intros (I & _). apply X in I. now rewrite lex_prefix_ge in I.
  - rewrite Es. cbn [snd]. assert (Iw : In (k, w) t) by (rewrite E; apply in_or_app; right; now left). destruct (starts_with w p) eqn:Ew.
    + apply starts_with_spec in Ew as (s0 & ->). rewrite skipn_app, skipn_all, Nat.sub_diag. cbn [app skipn]. split.
      * intros Y. injection Y as <-. split; [exact Iw|]. intros s' I. destruct (X _ I (lex_prefix_ge p s')) as [Y|Y]; [apply app_inv_head in Y; auto|]. rewrite lex_lt_app_common in Y. auto.
      * intros (I & M). f_equal. destruct (X _ I (lex_prefix_ge p s)) as [Y|Y]; [apply app_inv_head in Y; auto|]. rewrite lex_lt_app_common in Y. destruct (M _ Iw) as [Z|Z]; [exact Z|]. apply lex_lt_asym in Z. congruence.
    + split; [discriminate|]. intros (I & _). exfalso. assert (Y : lex_lt (p ++ s) w = false) by (destruct (X _ I (lex_prefix_ge p s)) as [ <- |Y]; [apply lex_lt_irrefl|now apply lex_lt_asym]).
      destruct (lex_between p w s L Y) as (s' & ->). assert (starts_with (p ++ s') p = true) by (apply starts_with_spec; eauto). congruence.
Qed.

(** ** Stages *)
Lemma get_after_set d name n dom name' : wf_db d -> multi dom = false -> is_known_stage name = true -> n < 2 ^ 64 ->
  exists d', set_stage_data d name n dom = Done d' /\ wf_db d' /\ (forall t, t <> dom -> d' t = d t)
    /\ get_stage_data d' name' dom = (if bytes_eqb name name' then Done n else get_stage_data d name' dom).
Proof.
  intros W M K Hn. unfold set_stage_data. rewrite K. cbn [negb]. eexists. split; [reflexivity|]. split; [now apply put_wf|]. split; [intros t Ht; now apply put_other|].
  unfold get_stage_data. rewrite lookup_put by assumption. destruct (eqb_spec name name') as [ -> |N].
  - rewrite K, eqb_refl. cbn [negb]. rewrite be_fixed_length. cbn [Nat.eqb]. now rewrite be_to_N_be_fixed_small.
  - destruct (eqb_spec name' name) as [ -> |_]; [congruence|]. reflexivity.
Qed.
Lemma get_other d d' name dom : d' dom = d dom -> get_stage_data d' name dom = get_stage_data d name dom.
Proof. intros E. unfold get_stage_data. now rewrite E. Qed.
Lemma stage_history ops d : wf_db d -> Forall (fun o => is_known_stage (op_name o) = true /\ op_fits o) ops ->
  exists d', stage_run d ops = Done d' /\ wf_db d'
    /\ (forall t, t <> kSyncStageProgress -> t <> kSyncStageUnwind -> d' t = d t)
    /\ (forall s p, get_stage_progress d s = Done p -> get_stage_progress d' s = Done (last_progress ops s p))
    /\ (forall s u, get_stage_unwind d s = Done u -> get_stage_unwind d' s = Done (last_unwind ops s u)).
Proof.
  intros W F. revert d W. induction F as [|o ops (K & Fit) F IH]; intros d W; [exists d; cbn; auto|].
  assert (X : exists d1, stage_step d o = Done d1 /\ wf_db d1 /\ (forall t, t <> kSyncStageProgress -> t <> kSyncStageUnwind -> d1 t = d t)
    /\ (forall s p, get_stage_progress d s = Done p -> get_stage_progress d1 s = Done (last_progress [o] s p))
    /\ (forall s u, get_stage_unwind d s = Done u -> get_stage_unwind d1 s = Done (last_unwind [o] s u))).
  { destruct o as [name n|name n|name]; cbn [op_name op_fits stage_step] in *.
    - destruct (get_after_set d name n kSyncStageProgress name W eq_refl K Fit) as (d1 & E & W1 & O & _). exists d1. split; [exact E|]. split; [exact W1|]. split; [auto|]. split.
      + intros s p Hp. destruct (get_after_set d name n kSyncStageProgress s W eq_refl K Fit) as (d2 & E2 & _ & _ & G). rewrite E in E2. injection E2 as <-. unfold get_stage_progress. rewrite G. cbn [last_progress]. destruct (bytes_eqb name s); [reflexivity|exact Hp].
      + intros s u Hu. unfold get_stage_unwind in *. cbn [last_unwind]. rewrite <- Hu. apply get_other, O. discriminate.
    - destruct (get_after_set d name n kSyncStageUnwind name W eq_refl K Fit) as (d1 & E & W1 & O & _). exists d1. split; [exact E|]. split; [exact W1|]. split; [auto|]. split.
      + intros s u Hu. unfold get_stage_progress in *. cbn [last_progress]. rewrite <- Hu. apply get_other, O. discriminate.
      + intros s p Hp. destruct (get_after_set d name n kSyncStageUnwind s W eq_refl K Fit) as (d2 & E2 & _ & _ & G). rewrite E in E2. injection E2 as <-. unfold get_stage_unwind. rewrite G. cbn [last_unwind]. destruct (bytes_eqb name s); [reflexivity|exact Hp].
    - destruct (get_after_set d name 0 kSyncStageUnwind name W eq_refl K eq_refl) as (d1 & E & W1 & O & _). exists d1. split; [exact E|]. split; [exact W1|]. split; [auto|]. split.
      + intros s u Hu. unfold get_stage_progress in *. cbn [last_progress]. rewrite <- Hu. apply get_other, O. discriminate.
      + intros s p Hp. destruct (get_after_set d name 0 kSyncStageUnwind s W eq_refl K eq_refl) as (d2 & E2 & _ & _ & G). rewrite E in E2. injection E2 as <-. unfold get_stage_unwind. rewrite G. cbn [last_unwind]. destruct (bytes_eqb name s); [reflexivity|exact Hp]. }
  destruct X as (d1 & E & W1 & O1 & P1 & U1). destruct (IH d1 W1) as (d2 & E2 & W2 & O2 & P2 & U2). exists d2. cbn [stage_run]. rewrite E. split; [exact E2|]. split; [exact W2|]. split; [intros t H1 H2; rewrite O2, O1; auto|]. split.
  - intros s p Hp. apply P1, P2 in Hp. rewrite Hp. f_equal. destruct o; reflexivity.
  - intros s u Hu. apply U1, U2 in Hu. rewrite Hu. f_equal. destruct o; reflexivity.
Qed.
Lemma stage_fresh s : (forall d, d kSyncStageProgress = [] -> is_known_stage s = true -> get_stage_progress d s = Done 0) /\ (forall d, d kSyncStageUnwind = [] -> is_known_stage s = true -> get_stage_unwind d s = Done 0).
Proof. split; intros d E K; unfold get_stage_progress, get_stage_unwind, get_stage_data; rewrite K, E; reflexivity. Qed.
Lemma stage_unknown d s n : is_known_stage s = false -> get_stage_progress d s = Throws /\ set_stage_progress d s n = Throws /\ get_stage_unwind d s = Throws /\ set_stage_unwind d s n = Throws /\ clear_stage_unwind d s = Throws.
Proof. intros K. unfold get_stage_progress, set_stage_progress, get_stage_unwind, set_stage_unwind, clear_stage_unwind, get_stage_data, set_stage_data. now rewrite K. Qed.

(** ** Versions *)
Lemma version_lt_spec a b : version_ltb a b = true <-> version_lt a b.
Proof.
  unfold version_ltb, version_lt. destruct (N.ltb_spec (vMajor a) (vMajor b)); [split; auto|]. destruct (N.eqb_spec (vMajor a) (vMajor b)); [|split; [discriminate|lia]].
  destruct (N.ltb_spec (vMinor a) (vMinor b)); [split; auto|]. destruct (N.eqb_spec (vMinor a) (vMinor b)); [|split; [discriminate|lia]]. rewrite N.ltb_lt. lia.
Qed.
Lemma version_eq_spec a b : version_eqb a b = true <-> a = b.
Proof. unfold version_eqb. rewrite !andb_true_iff, !N.eqb_eq. destruct a, b; cbn. intuition congruence. Qed.
Lemma version_total a b : a = b \/ version_lt a b \/ version_lt b a.
Proof. unfold version_lt. destruct a as [a1 a2 a3], b as [b1 b2 b3]; cbn. destruct (N.lt_trichotomy a1 b1) as [|[->|]], (N.lt_trichotomy a2 b2) as [|[->|]], (N.lt_trichotomy a3 b3) as [|[->|]]; intuition. Qed.
Lemma split4 (a b c : bytes) : length a = 4%nat -> length b = 4%nat -> firstn 4 (a ++ b ++ c) = a /\ firstn 4 (skipn 4 (a ++ b ++ c)) = b /\ skipn 8 (a ++ b ++ c) = c.
Proof.
  intros La Lb. repeat (destruct a as [|? a]; try discriminate). repeat (destruct b as [|? b]; try discriminate). auto.
Qed.
Lemma written_version d v : wf_db d -> version_fits v -> get_schema_version (put d kDatabaseInfo kDbSchemaVersionKey (be_fixed 4 (vMajor v) ++ be_fixed 4 (vMinor v) ++ be_fixed 4 (vPatch v))) = Done (Some v).
Proof.
  intros W (F1 & F2 & F3). unfold get_schema_version. rewrite lookup_put by auto. rewrite eqb_refl. destruct (split4 (be_fixed 4 (vMajor v)) (be_fixed 4 (vMinor v)) (be_fixed 4 (vPatch v)) (be_fixed_length _ _) (be_fixed_length _ _)) as (-> & -> & ->).
  rewrite !app_length, !be_fixed_length. cbn [Nat.add Nat.ltb Nat.leb]. rewrite firstn_all2 by now rewrite be_fixed_length. rewrite !be_to_N_be_fixed_small by assumption. now destruct v.
Qed.
Lemma schema_step d o v : wf_db d -> get_schema_version d = Done o -> version_fits v ->
  match set_schema_version d v with
  | Done d' => wf_db d' /\ get_schema_version d' = Done (Some v) /\ (forall w, o = Some w -> w = v \/ version_lt w v)
               /\ (forall t, t <> kDatabaseInfo -> d' t = d t) /\ (forall k, k <> kDbSchemaVersionKey -> lookup (d' kDatabaseInfo) k = lookup (d kDatabaseInfo) k)
  | Throws => exists w, o = Some w /\ version_lt v w
  | Undefined => False
  end.
Proof.
  intros W G F. unfold set_schema_version. rewrite G. cbn [obind]. cbv zeta.
  set (d1 := put d kDatabaseInfo kDbSchemaVersionKey (be_fixed 4 (vMajor v) ++ be_fixed 4 (vMinor v) ++ be_fixed 4 (vPatch v))).
  assert (X : wf_db d1 /\ get_schema_version d1 = Done (Some v) /\ (forall t, t <> kDatabaseInfo -> d1 t = d t) /\ (forall k, k <> kDbSchemaVersionKey -> lookup (d1 kDatabaseInfo) k = lookup (d kDatabaseInfo) k)).
  { split; [now apply put_wf|]. split; [now apply written_version|]. split; [intros t Ht; now apply put_other|]. intros k Hk. unfold d1. rewrite lookup_put by auto. destruct (eqb_spec k kDbSchemaVersionKey); congruence. }
  destruct X as (X1 & X2 & X3 & X4). destruct o as [w|].
  - destruct (version_eqb v w) eqn:E.
    + apply version_eq_spec in E. subst w. split; [exact W|]. split; [exact G|]. split; [intros w Ew; injection Ew as <-; auto|]. auto.
    + destruct (version_ltb v w) eqn:L.
      * exists w. split; [reflexivity|]. now apply version_lt_spec.
      * split; [exact X1|]. split; [exact X2|]. split; [|auto]. intros x Ex. injection Ex as <-. destruct (version_total w v) as [ -> |[H|H]]; [|auto|].
        -- now left.
        -- apply version_lt_spec in H. congruence.
  - split; [exact X1|]. split; [exact X2|]. split; [intros w Ew; discriminate|auto].
Qed.

(** ** Modes *)
Definition initialized (m : storage_mode) : storage_mode := mkMode true (smHistory m) (smReceipts m) (smTxIndex m) (smCallTraces m) (smTEVM m).
Lemma mode_written d m : wf_db d -> get_storage_mode (set_storage_mode d m) = initialized m /\ get_schema_version (set_storage_mode d m) = get_schema_version d
  /\ wf_db (set_storage_mode d m) /\ (forall t, t <> kDatabaseInfo -> set_storage_mode d m t = d t) /\ read_storage_mode_receipts (set_storage_mode d m) = smReceipts m.
Proof.
  intros W. unfold set_storage_mode. cbv zeta.
  set (d1 := put d kDatabaseInfo kStorageModeHistoryKey _). assert (W1 : wf_db d1) by now apply put_wf.
  set (d2 := put d1 kDatabaseInfo kStorageModeReceiptsKey _). assert (W2 : wf_db d2) by now apply put_wf.
  set (d3 := put d2 kDatabaseInfo kStorageModeTxIndexKey _). assert (W3 : wf_db d3) by now apply put_wf.
  set (d4 := put d3 kDatabaseInfo kStorageModeCallTracesKey _). assert (W4 : wf_db d4) by now apply put_wf.
  set (d5 := put d4 kDatabaseInfo kStorageModeTEVMKey _). assert (W5 : wf_db d5) by now apply put_wf.
  assert (L : forall k, lookup (d5 kDatabaseInfo) k = if bytes_eqb k kStorageModeTEVMKey then Some (mode_value (smTEVM m)) else if bytes_eqb k kStorageModeCallTracesKey then Some (mode_value (smCallTraces m))
     else if bytes_eqb k kStorageModeTxIndexKey then Some (mode_value (smTxIndex m)) else if bytes_eqb k kStorageModeReceiptsKey then Some (mode_value (smReceipts m)) else if bytes_eqb k kStorageModeHistoryKey then Some (mode_value (smHistory m)) else lookup (d kDatabaseInfo) k).
  { intros k. unfold d5. rewrite lookup_put by auto. unfold d4. rewrite lookup_put by auto. unfold d3. rewrite lookup_put by auto. unfold d2. rewrite lookup_put by auto. unfold d1. rewrite lookup_put by auto. reflexivity. }
  split; [|split; [|split; [exact W5|split]]].
  - unfold get_storage_mode, mode_flag. rewrite !L. destruct m as [i [] [] [] [] []]; reflexivity.
  - unfold get_schema_version. rewrite L. reflexivity.
  - intros t Ht. unfold d5, d4, d3, d2, d1. now rewrite !put_other.
  - unfold read_storage_mode_receipts, mode_flag. rewrite L. destruct m as [i [] [] [] [] []]; reflexivity.
Qed.
Lemma mode_parse m : parse_storage_mode (mode_to_string m) = Done (if smInitialized m then m else kDefaultStorageMode).
Proof. destruct m as [[] [] [] [] [] []]; reflexivity. Qed.
Definition mode_letters : bytes := [0x68; 0x72; 0x74; 0x63; 0x65].
(** Parsing in general: a set of letters. *)
Lemma parse_flags_spec s : forall m, parse_flags s m =
  if forallb (fun c => existsb (N.eqb c) mode_letters) s
  then Done (mkMode (smInitialized m) (smHistory m || existsb (N.eqb 0x68) s) (smReceipts m || existsb (N.eqb 0x72) s) (smTxIndex m || existsb (N.eqb 0x74) s)
                    (smCallTraces m || existsb (N.eqb 0x63) s) (smTEVM m || existsb (N.eqb 0x65) s))
  else Throws.
Proof.
  induction s as [|c s IH]; intros m; [destruct m; cbn; now rewrite !orb_false_r|]. cbn [parse_flags forallb existsb]. unfold mode_letters at 1. cbn [existsb].
  destruct (N.eqb_spec c 0x68) as [ -> |N1]; [cbn [orb andb]; rewrite IH; cbn; destruct (forallb _ s); [|reflexivity]; now rewrite !orb_true_r|].
  destruct (N.eqb_spec c 0x72) as [ -> |N2]; [cbn [orb andb]; rewrite IH; cbn; destruct (forallb _ s); [|reflexivity]; now rewrite !orb_true_r|].
  destruct (N.eqb_spec c 0x74) as [ -> |N3]; [cbn [orb andb]; rewrite IH; cbn; destruct (forallb _ s); [|reflexivity]; now rewrite !orb_true_r|].
  destruct (N.eqb_spec c 0x63) as [ -> |N4]; [cbn [orb andb]; rewrite IH; cbn; destruct (forallb _ s); [|reflexivity]; now rewrite !orb_true_r|].
  destruct (N.eqb_spec c 0x65) as [ -> |N5]; [cbn [orb andb]; rewrite IH; cbn; destruct (forallb _ s); [|reflexivity]; now rewrite !orb_true_r|]. reflexivity.
Qed.
