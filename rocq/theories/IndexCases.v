(** What the indexing stages leave out, and concrete cases. *)
From Coq Require Import Permutation Sorting.Sorted.
From stdpp Require Import gmap.
From Verif Require Import Base BaseFacts DbTable DbModel DbSpec DbProofs DbCases EtlModel EtlSpec EtlProofs EtlLemmas UnwindProofs UnwindProofs2 HashStateModel HashStateProofs HashStateProofs2 BufferModel BufferProofs7 IndexModel IndexSpec IndexProofs IndexLemmas.

(** ** Keys that are never found *)
Lemma find_other_length (t : table) k n : dup_ordered t -> (forall k' v, In (k', v) t -> length k' = n) -> length k <> n -> find t k = [].
Proof. intros O L N. destruct (find_first t k O) as [(E & _)|(pre & v & r & E & _)]; [exact E|]. exfalso. apply N, (L k v). rewrite E. apply in_or_app. right. now left. Qed.
Lemma progress_known d name n domain : get_stage_data d name domain = Done n -> is_known_stage name = true.
Proof. unfold get_stage_data. destruct (is_known_stage name); [reflexivity|discriminate]. Qed.
Lemma walk_nil (walk : bitmaps -> bitmaps) : some_order walk -> walk [] = [].
Proof. intros W. apply Permutation_nil. apply Permutation_sym, W. Qed.

Lemma tx_lookup_nothing keccak pick d p : wf_db d -> (forall k v, In (k, v) (d kBlockBodies) -> length k = 40%nat) -> get_stage_progress d kTxLookupKey = Done p -> stage_tx_lookup keccak pick d = Done (kStageSuccess, d).
Proof.
  intros W L G. unfold stage_tx_lookup. rewrite G. cbn [obind]. rewrite (find_other_length (d kBlockBodies) _ 40); [|apply ordered_dup, wf_single; [exact W|reflexivity]|exact L|rewrite be_fixed_length; discriminate]. reflexivity.
Qed.
Section Bitmaps.
  Variable pick : list (entry * nat) -> nat.
  Variable walk : bitmaps -> bitmaps.
  Variable size_in_bytes : bitmap -> N.
  Variable bm_write : bitmap -> bytes.
  Variable bm_read : bytes -> bitmap.
  Hypothesis Walk : some_order walk.

  Lemma history_nothing (storage : bool) d p : get_stage_progress d (if storage then kStorageHistoryIndexKey else kAccountHistoryKey) = Done p ->
    find (d (if storage then kPlainStorageChangeSet else kPlainAccountChangeSet)) (be_fixed 8 p) = [] ->
    history_index_stage pick walk size_in_bytes bm_write bm_read storage d = Done (kStageSuccess, d).
  Proof. intros G E. unfold history_index_stage. rewrite G. cbn [obind]. rewrite E. cbn [extract_history]. unfold flush_bitmaps. rewrite (walk_nil walk Walk). reflexivity. Qed.
  Lemma storage_history_nothing d p : wf_db d -> (forall k v, In (k, v) (d kPlainStorageChangeSet) -> length k = 36%nat) -> get_stage_progress d kStorageHistoryIndexKey = Done p ->
    stage_storage_history pick walk size_in_bytes bm_write bm_read d = Done (kStageSuccess, d).
  Proof. intros W L G. apply (history_nothing true d p G). apply (find_other_length _ _ 36); [apply wf_multi; [exact W|reflexivity]|exact L|rewrite be_fixed_length; discriminate]. Qed.
  Lemma account_history_gap d p : wf_db d -> get_stage_progress d kAccountHistoryKey = Done p -> (forall v, ~ In (be_fixed 8 p, v) (d kPlainAccountChangeSet)) ->
    stage_account_history pick walk size_in_bytes bm_write bm_read d = Done (kStageSuccess, d).
  Proof.
    intros W G N. apply (history_nothing false d p G). destruct (find_first (d kPlainAccountChangeSet) (be_fixed 8 p)) as [(E & _)|(pre & v & r & E & _)]; [apply wf_multi; [exact W|reflexivity]|exact E|]. exfalso. apply (N v). rewrite E. apply in_or_app. right. now left.
  Qed.
  Lemma log_index_nothing cbor_bytes d p : wf_db d -> (forall k v, In (k, v) (d kLogs) -> length k = 12%nat) -> get_stage_progress d kLogIndexKey = Done p ->
    exists d', stage_log_index pick walk size_in_bytes bm_write bm_read cbor_bytes d = Done (kStageSuccess, d') /\ get_stage_progress d' kLogIndexKey = Done 0 /\ (forall t, t <> kSyncStageProgress -> d' t = d t).
  Proof.
    intros W L G. unfold stage_log_index. rewrite G. cbn [obind]. rewrite (find_other_length (d kLogs) _ 12); [|apply ordered_dup, wf_single; [exact W|reflexivity]|exact L|rewrite be_fixed_length; discriminate]. cbn [extract_logs fst snd]. unfold flush_bitmaps. rewrite (walk_nil walk Walk). cbn [map obind fst snd fold_left length].
    unfold load. cbn [new_collector c_size]. change (0 =? 0) with true. cbn iota. cbn [obind load_indexes]. unfold set_stage_progress, set_stage_data. rewrite (proj1 (proj2 (proj2 known_stages))). cbn [negb obind]. eexists. split; [reflexivity|].
    set (d1 := set_table (set_table d kLogTopicIndex (d kLogTopicIndex)) kLogAddressIndex (set_table d kLogTopicIndex (d kLogTopicIndex) kLogAddressIndex)).
    assert (E1 : forall t, d1 t = d t) by (intros t; unfold d1, set_table; destruct (tbl_eq_dec kLogAddressIndex t) as [ <- |]; [destruct (tbl_eq_dec kLogTopicIndex kLogAddressIndex); [congruence|reflexivity]|destruct (tbl_eq_dec kLogTopicIndex t) as [ <- |]; reflexivity]).
    assert (W1 : wf_db d1) by (intros t; rewrite E1; apply W). split.
    - unfold get_stage_progress, get_stage_data. rewrite (proj1 (proj2 (proj2 known_stages))). cbn [negb]. rewrite lookup_put by (exact W1 || reflexivity). rewrite eqb_refl, be_fixed_length. cbn [Nat.eqb]. now rewrite be_to_N_be_fixed_small by lia.
    - intros t N. rewrite put_other by exact N. apply E1.
  Qed.
End Bitmaps.

(** ** Block hashes *)
Lemma block_hashes_nothing d p : wf_db d -> p < 2 ^ 64 -> get_stage_progress d kBlockHashesKey = Done p ->
  stage_blockhashes d = Done (match lookup (d kCanonicalHashes) (be_fixed 8 ((p + 1) mod 2 ^ 64)) with
                              | None => kStageSuccess
                              | Some h => if Nat.eqb (length h) 32 then kStageBadChainSequence else kStageBadBlockHash
                              end, d).
Proof.
  intros W Hp G. unfold stage_blockhashes, block_key. rewrite G. cbn [obind]. set (x := (p + 1) mod 2 ^ 64). assert (Hx : x < 2 ^ 64) by (apply N.mod_lt; lia).
  unfold lookup. destruct (find_first (d kCanonicalHashes) (be_fixed 8 x)) as [(E & _)|(pre & v & r & _ & E & _)]; [apply ordered_dup, wf_single; [exact W|reflexivity]| |]; rewrite E; [reflexivity|].
  cbn [blockhashes_loop snd]. assert (L8 : load_big_u64 (be_fixed 8 x) = Done x).
  { unfold load_big_u64. rewrite be_fixed_length. destruct (Nat.ltb_spec 8 8) as [X|_]; [lia|]. rewrite firstn_all2 by (rewrite be_fixed_length; lia). now rewrite be_to_N_be_fixed_small. }
  rewrite L8. cbn [obind]. rewrite N.eqb_refl. cbn [negb]. destruct (Nat.eqb (length v) 32); [|reflexivity]. cbn [negb].
  assert (Nx : x =? (x + 1) mod 2 ^ 64 = false).
  { apply N.eqb_neq. destruct (N.lt_ge_cases (x + 1) (2 ^ 64)) as [B|B]; [rewrite N.mod_small by exact B; lia|]. assert (X : x + 1 = 2 ^ 64) by lia. rewrite X, N.mod_same by lia. lia. }
  rewrite Nx. reflexivity.
Qed.

(** ** A bitmap that is over the limit of a chunk *)
Section Large.
  Variable pick : list (entry * nat) -> nat.
  Variable walk : bitmaps -> bitmaps.
  Variable size_in_bytes : bitmap -> N.
  Variable bm_write : bitmap -> bytes.
  Variable bm_read : bytes -> bitmap.
  Hypothesis Pick : least_first pick.
  Hypothesis Walk : some_order walk.
  Hypothesis Fa : faithful size_in_bytes bm_write bm_read.

  Lemma last_block_cons (q : table) e n0 : last_block (e :: q) n0 = last_block q (be_to_N (firstn 8 (fst e))).
  Proof. unfold last_block. rewrite last_cons. now destruct (list.last q). Qed.
  Lemma last_block_snoc (q : table) e n0 : last_block (q ++ [e]) n0 = be_to_N (firstn 8 (fst e)).
  Proof. unfold last_block. now rewrite last_snoc. Qed.
  Lemma snoc_cases (r : table) : r = [] \/ exists q e, r = q ++ [e].
  Proof. destruct r as [|e r _] using rev_ind; [auto|]. right. eauto. Qed.
  Lemma chunks_large fuel k (b : bitmap) mx : b <> ∅ -> cut_left size_in_bytes b kBitmapChunkLimit = Done (b ∖ {[mx]}, ∅) ->
    put_chunks size_in_bytes bm_write (S (S fuel)) 8 MDBX_APPEND [] k b = Done [(open_chunk k, bm_write (b ∖ {[mx]}))].
  Proof. intros Nb Ec. cbn [put_chunks]. destruct (decide (b = ∅)) as [X|_]; [contradiction|]. rewrite Ec. cbn [obind]. destruct (decide ((∅ : bitmap) = ∅)) as [_|X]; [|congruence]. reflexivity. Qed.
  Lemma extract_single a (q : table) : length a = 20%nat -> forall b space n0, (forall k v, In (k, v) q -> exists n s, n < 2 ^ 32 /\ k = be_fixed 8 n /\ v = a ++ s) -> 64 + space + 8 * N.of_nat (length q) <= 256 * 2 ^ 20 ->
    exists b' : bitmap, extract_history walk bm_write false q [(a, b)] space n0 = Done ([(a, bm_write b')], last_block q n0) /\ forall n, n ∈ b' <-> n ∈ b \/ n < 2 ^ 32 /\ exists s, In (be_fixed 8 n, a ++ s) q.
  Proof.
    intros La. induction q as [|[k v] q IH]; intros b space n0 Sh Sp.
    - exists b. cbn [extract_history]. unfold flush_bitmaps. rewrite (Permutation_length_1_inv (Permutation_sym (Walk [(a, b)]))). split; [reflexivity|]. intros n. split; [auto|]. intros [X|(_ & s & [])]. exact X.
    - destruct (Sh k v) as (n1 & s & Hn1 & -> & -> ); [now left|]. cbn [extract_history]. unfold composite_key. rewrite app_length, La. destruct (Nat.ltb_spec (20 + length s) 20) as [X|_]; [lia|]. cbn [obind]. destruct (parts_at a s 20 La) as (-> & _).
      unfold load_big_u64. rewrite be_fixed_length. destruct (Nat.ltb_spec 8 8) as [X|_]; [lia|]. cbn [obind].
      assert (E8 : be_to_N (firstn 8 (be_fixed 8 n1)) = n1) by (rewrite firstn_all2 by (rewrite be_fixed_length; lia); apply be_to_N_be_fixed_small; lia). rewrite E8. cbn [bm_add]. rewrite eqb_refl. cbn [length] in Sp |- *. change (64 * N.of_nat 1) with 64.
      destruct (N.ltb_spec (256 * 2 ^ 20) (64 + (space + 8))) as [X|_]; [lia|].
      destruct (IH ({[n1]} ∪ b) (space + 8) n1) as (b' & E & I); [intros k v J; apply Sh; now right|lia|]. exists b'. split.
      + eapply eq_trans; [exact E|]. f_equal. f_equal. symmetry. etransitivity; [apply (last_block_cons q)|]. cbn [fst]. now rewrite E8.
      + intros n. rewrite I, elem_of_union, elem_of_singleton. split.
        * intros [[ -> |X]|(Hn & s' & J)]; [|auto|].
          -- right. split; [exact Hn1|]. exists s. now left.
          -- right. split; [exact Hn|]. exists s'. now right.
        * intros [X|(Hn & s' & [J|J])]; [auto| |].
          -- apply pair_equal_spec in J as (J & _). apply be8_inj in J; [|lia|lia]. auto.
          -- right. split; [exact Hn|]. exists s'. exact J.
  Qed.

  Lemma account_history_large d a (B : gset N) : wf_db d -> get_stage_progress d kAccountHistoryKey = Done 0 -> d kAccountHistory = [] ->
    length a = 20%nat -> (forall k v, In (k, v) (d kPlainAccountChangeSet) -> exists n s, n < 2 ^ 32 /\ k = be_fixed 8 n /\ v = a ++ s) -> 8 * N.of_nat (length (d kPlainAccountChangeSet)) < 256 * 2 ^ 20 - 64 ->
    (forall n, n ∈ B <-> account_changed d a n) -> account_changed d a 0 -> (exists n, n <> 0 /\ account_changed d a n) -> 1950 < size_in_bytes B -> size_in_bytes B < 2 ^ 31 ->
    exists d' m, stage_account_history pick walk size_in_bytes bm_write bm_read d = Done (kStageSuccess, d') /\ get_stage_progress d' kAccountHistoryKey = Done m
      /\ account_changed d a m /\ forall n, ~ account_indexed bm_read d' a m /\ (n < m -> account_indexed bm_read d' a n <-> account_changed d a n).
  Proof.
    intros W Gp Ei La Sh Len HB C0 (n2 & Nn2 & C2) Lo Hi. set (t := d kPlainAccountChangeSet) in *. assert (Ot : dup_ordered t) by (apply (wf_multi d kPlainAccountChangeSet W); reflexivity).
    assert (Sh8 : forall k v, In (k, v) t -> exists n, n < 2 ^ 64 /\ k = be_fixed 8 n) by (intros k v I; destruct (Sh k v I) as (n & s & Hn & -> & _); exists n; split; [lia|reflexivity]).
    destruct C0 as (_ & s0 & I0).
    destruct (find_from t 0 ltac:(lia) Ot Sh8) as [(_ & X)|((v1 & r1 & Ef) & Fi & pre & Ep)]; [exfalso; exact (X _ I0)|]. set (q := find t (be_fixed 8 0)) in *.
    assert (I1 : In (be_fixed 8 0, v1) t) by (rewrite Ep, Ef; apply in_or_app; right; now left). destruct (Sh _ _ I1) as (n1 & s1 & Hn1 & E1 & -> ). apply be8_inj in E1; [|lia|lia]. subst n1.
    assert (Shr : forall k v, In (k, v) r1 -> exists n s, n < 2 ^ 32 /\ k = be_fixed 8 n /\ v = a ++ s) by (intros k v I; apply Sh; rewrite Ep, Ef; apply in_or_app; right; now right).
    assert (Lr : 64 + 8 + 8 * N.of_nat (length r1) <= 256 * 2 ^ 20) by (pose proof (f_equal (@length entry) Ep) as Lt; rewrite Ef, app_length in Lt; cbn [length] in Lt; change (length t) with (@length entry t) in Len; rewrite Lt in Len; clear - Len; change (length r1) with (@length entry r1); lia).
    destruct (extract_single a r1 La {[0]} 8 0 Shr Lr) as (b & Ex & Ib).
    assert (Eb : b = B).
    { apply set_eq. intros n. rewrite Ib, elem_of_singleton. split.
      - intros H. apply HB. destruct H as [ -> |(Hn & s & I)].
        + split; [lia|]. exists s1. exact I1.
        + split; [lia|]. exists s. change (In (be_fixed 8 n, a ++ s) t). rewrite Ep, Ef. apply in_or_app. right. now right.
      - intros H. apply HB in H as (Hn & s & I). change (In (be_fixed 8 n, a ++ s) t) in I. destruct (Sh _ _ I) as (n' & s' & Hn' & E' & _). apply be8_inj in E'; [|exact Hn|lia]. subst n'.
        destruct (N.eq_dec n 0) as [ -> |Nz]; [auto|]. right. split; [exact Hn'|]. exists s. assert (J : In (be_fixed 8 n, a ++ s) q).
        { apply Fi. split; [exact I|]. cbn [fst]. destruct (lex_lt (be_fixed 8 n) (be_fixed 8 0)) eqn:L; [|reflexivity]. apply (proj1 (be8_lt n 0 Hn ltac:(lia))) in L. lia. }
        rewrite Ef in J. destruct J as [J|J]; [|exact J]. exfalso. apply pair_equal_spec in J as (J & _). apply be8_inj in J; [|lia|lia]. congruence. }
    subst b.
    assert (E0 : extract_history walk bm_write false q [] 0 0 = Done ([(a, bm_write B)], last_block r1 0)).
    { rewrite Ef. cbn [extract_history]. unfold composite_key. rewrite app_length, La. destruct (Nat.ltb_spec (20 + length s1) 20) as [X|_]; [lia|]. cbn [obind]. destruct (parts_at a s1 20 La) as (-> & _).
      unfold load_big_u64. rewrite be_fixed_length. destruct (Nat.ltb_spec 8 8) as [X|_]; [lia|]. cbn [obind].
      assert (E8 : be_to_N (firstn 8 (be_fixed 8 0)) = 0) by (rewrite firstn_all2 by (rewrite be_fixed_length; lia); apply be_to_N_be_fixed_small; lia). rewrite E8. cbn [bm_add length]. change (64 * N.of_nat 1) with 64. destruct (N.ltb_spec (256 * 2 ^ 20) (64 + (0 + 8))) as [X|_]; [lia|]. exact Ex. }
    assert (HB32 : forall n, n ∈ B -> n < 2 ^ 32) by (intros n H; apply HB in H as (Hn & s & I); destruct (Sh _ _ I) as (n' & s' & Hn' & E' & _); apply be8_inj in E'; [|exact Hn|lia]; now subst n').
    assert (NB : B <> ∅) by (apply (not_empty _ 0); apply HB; split; [lia|]; exists s0; exact I0).
    assert (Fits : Forall fits [(a, bm_write B)]) by (constructor; [|constructor]; split; cbn [fst snd]; [unfold blen; rewrite La; lia|rewrite (fa_size _ _ _ Fa); lia]).
    assert (Ne : Forall (fun e : entry => fst e <> [] \/ snd e <> []) [(a, bm_write B)]) by (constructor; [|constructor]; left; cbn [fst]; intros X; rewrite X in La; discriminate).
    assert (Tot : total_size [(a, bm_write B)] < 2 ^ 64) by (cbn [total_size fold_right]; unfold entry_size; cbn [fst snd]; rewrite (fa_size _ _ _ Fa); unfold blen; rewrite La; lia).
    destruct (load_all _ Fits Ne Tot) as (l & _ & Pl & Ll). apply Permutation_sym, Permutation_length_1_inv in Pl. subst l. destruct (Ll (512 * 2 ^ 20) pick 1%nat Pick (Nat.le_refl _)) as (c' & El).
    destruct (cut_left_spec size_in_bytes B kBitmapChunkLimit NB HB32) as (mn & mx & Imn & Imx & Bd & Ec). destruct (N.leb_spec (size_in_bytes B) kBitmapChunkLimit) as [X|_]; [unfold kBitmapChunkLimit in X; lia|].
    assert (Nm : mn =? mx = false). { apply N.eqb_neq. intros ->. assert (X0 : 0 ∈ B) by (apply HB; split; [lia|]; exists s0; exact I0). apply HB in C2. pose proof (Bd 0 X0). pose proof (Bd n2 C2). lia. }
    rewrite Nm in Ec.
    assert (Em : mx = last_block r1 0).
    { assert (Sq : StronglySorted (fun a b => UnwindProofs.block_of a <= UnwindProofs.block_of b) t) by (apply table_by_block; [exact Ot|]; intros k v I; destruct (Sh8 k v I) as (n & Hn & -> ); exists n, []; split; [now rewrite app_nil_r|exact Hn]).
      destruct (snoc_cases r1) as [Eq|(q' & e & Eq)]; cycle 1.
      - destruct e as [k v]. assert (Iq : In (k, v) r1) by (rewrite Eq; apply in_or_app; right; now left). destruct (Shr k v Iq) as (n & s & Hn & -> & -> ). cbn [fst].
        assert (E8 : be_to_N (firstn 8 (be_fixed 8 n)) = n) by (rewrite firstn_all2 by (rewrite be_fixed_length; lia); apply be_to_N_be_fixed_small; lia). transitivity n; [|symmetry; rewrite Eq; eapply eq_trans; [apply (last_block_snoc q')|exact E8]].
        assert (In_ : n ∈ B) by (apply HB; split; [lia|]; exists s; change (In (be_fixed 8 n, a ++ s) t); rewrite Ep, Ef; apply in_or_app; right; now right). pose proof (Bd n In_) as Bn.
        apply HB in Imx as (Hx & sx & Ix). change (In (be_fixed 8 mx, a ++ sx) t) in Ix. assert (mx <= n); [|lia].
        rewrite Ep, Ef, Eq in Sq, Ix. change (pre ++ (be_fixed 8 0, a ++ s1) :: q' ++ [(be_fixed 8 n, a ++ s)]) with (pre ++ ((be_fixed 8 0, a ++ s1) :: q') ++ [(be_fixed 8 n, a ++ s)]) in Sq, Ix. rewrite app_assoc in Sq, Ix. apply sorted_app in Sq as (_ & _ & Fl). apply in_app_or in Ix as [I'|[I'|[]]].
        + specialize (Fl _ _ I' (or_introl eq_refl)). rewrite !block_of_key0 in Fl by lia. exact Fl.
        + apply pair_equal_spec in I' as (I' & _). apply be8_inj in I'; lia.
      - rewrite Eq in Ef. exfalso. destruct C2 as (Hn2 & s2 & I2). change (In (be_fixed 8 n2, a ++ s2) t) in I2. assert (J : In (be_fixed 8 n2, a ++ s2) q).
        { apply Fi. split; [exact I2|]. cbn [fst]. destruct (lex_lt (be_fixed 8 n2) (be_fixed 8 0)) eqn:L; [|reflexivity]. apply (proj1 (be8_lt n2 0 Hn2 ltac:(lia))) in L. lia. }
        rewrite Ef in J. destruct J as [J|[]]. apply pair_equal_spec in J as (J & _). apply be8_inj in J; lia. }
    set (ti := [(open_chunk a, bm_write (B ∖ {[mx]}))]).
    assert (Li : load_indexes size_in_bytes bm_write bm_read 8 MDBX_APPEND (d kAccountHistory) [(a, bm_write B)] = Done ti).
    { rewrite Ei. cbn [load_indexes]. unfold load_index. cbn [fst snd]. rewrite (fa_read _ _ _ Fa). cbn [lookup find lower_bound]. destruct (size_pos B NB) as (m & Es). pose proof (chunks_large m a B mx NB Ec) as X. rewrite <- Es in X. cbn [lookup]. unfold lookup. cbn [find lower_bound]. rewrite X. reflexivity. }
    set (d1 := set_table d kAccountHistory ti). assert (W1 : wf_db d1) by (apply set_table_wf; [exact W|repeat constructor]).
    exists (put d1 kSyncStageProgress kAccountHistoryKey (be_fixed 8 mx)), mx. split; [|split; [|split]].
    - unfold stage_account_history, history_index_stage. rewrite Gp. cbn [obind]. fold t q. rewrite E0. cbn [obind]. rewrite collects_size by (cbn [c_size new_collector length]; lia). cbn [c_size new_collector length]. change (0 + N.of_nat 1 =? 0) with false. cbn iota.
      rewrite El. cbn [obind]. change (if 0 =? 0 then MDBX_APPEND else MDBX_UPSERT) with MDBX_APPEND. rewrite Li. cbn [obind]. unfold set_stage_progress, set_stage_data. rewrite (proj1 known_stages). cbn [negb obind]. now rewrite Em.
    - unfold get_stage_progress, get_stage_data. rewrite (proj1 known_stages). cbn [negb]. rewrite lookup_put by (exact W1 || reflexivity). rewrite eqb_refl, be_fixed_length. cbn [Nat.eqb]. pose proof (HB32 mx Imx). rewrite be_to_N_be_fixed_small by lia. reflexivity.
    - now apply HB.
    - assert (Ix : forall n, account_indexed bm_read (put d1 kSyncStageProgress kAccountHistoryKey (be_fixed 8 mx)) a n <-> n ∈ B /\ n <> mx).
      { intros n. unfold account_indexed. rewrite put_other by discriminate. unfold d1. rewrite set_table_same. unfold ti. split.
        - intros (v & [I|[]] & Hn). apply pair_equal_spec in I as (_ & <- ). rewrite (fa_read _ _ _ Fa), elem_of_difference, elem_of_singleton in Hn. exact Hn.
        - intros Hn. exists (bm_write (B ∖ {[mx]})). split; [now left|]. rewrite (fa_read _ _ _ Fa), elem_of_difference, elem_of_singleton. exact Hn. }
      intros n. rewrite !Ix. split; [tauto|]. intros Hn. rewrite HB. split; [tauto|]. intros X. split; [exact X|lia].
  Qed.
End Large.
