(** What a new database holds after initialisation. *)
From stdpp Require Import gmap.
From Verif Require Import Base BaseFacts RlpSpec RlpModel RlpProofs TxSpec TypesModel TypesSpec UtilModel UtilProofs TrieModel TrieProofs TrieLemmas BlockModel BlockSpec BlockProofs CodecLemmas ChainModel DbTable DbModel DbSpec DbProofs DbCases
  BufferModel BufferSpec BufferCases StateRootSpec StateRootProofs StateRootProofs2 MemRootSpec MemRootModel MemRootProofs MemRootLemmas GenesisSpec GenesisModel GenesisProofs.

(** ** The total difficulty *)
Lemma le_shape d : d < 2 ^ 256 -> exists k, rev (be_fixed 32 d) = rev (BE d) ++ zeros k /\ (k + length (BE d) = 32)%nat.
Proof.
  intros H. destruct (zeroless_split (be_fixed 32 d)) as (k & E & _). rewrite zeroless_BE in E by exact H. exists k. split.
  - rewrite E at 1. rewrite rev_app_distr. f_equal. clear. unfold zeros. induction k as [|k IH]; [reflexivity|]. cbn [repeat rev]. rewrite IH. symmetry. apply repeat_cons.
  - apply (f_equal (@length N)) in E. rewrite be_fixed_length, app_length in E. unfold zeros in E. rewrite repeat_length in E. lia.
Qed.
Lemma rlp_num_big d : 128 <= d -> d < 2 ^ 256 -> rlp_str (BE d) = (128 + blen (BE d)) :: BE d.
Proof.
  intros H H2. assert (L : blen (BE d) < 56) by (rewrite BE_blen; pose proof (byte_len_bound d 32 H2); lia). pose proof (BE_val d) as V. destruct (BE d) as [|x [|y t]] eqn:E.
  - cbn in V. lia.
  - cbn [be_to_N fold_left] in V. unfold be_to_N in V. cbn [fold_left] in V. assert (x = d) as -> by lia. cbn [rlp_str]. destruct (N.ltb_spec d 128); [lia|]. reflexivity.
  - unfold rlp_str, hdr. destruct (N.ltb_spec (blen (x :: y :: t)) 56); [reflexivity|lia].
Qed.
Lemma difficulty_decodes d : d < 2 ^ 256 -> (exists r, decode_u256 (rev (be_fixed 32 d)) = Ok (d, r)) <-> 0 < d < 128.
Proof.
  intros H. destruct (le_shape d H) as (k & E & L). split.
  - intros (r & D). apply (decode_uint_canon 32) in D as (D & _ & _); [|unfold wf_bytes; apply Forall_rev, be_fixed_wf]. rewrite E in D. destruct (N.eq_dec d 0) as [ -> |Nz].
    + exfalso. change (BE 0) with (@nil N) in D, L. cbn [length] in L. assert (k = 32%nat) as -> by lia. discriminate.
    + destruct (N.lt_ge_cases d 128) as [Lt|Ge]; [lia|]. exfalso. rewrite rlp_num_big in D by assumption. destruct (rev (BE d)) as [|x t] eqn:R; [apply (f_equal (@rev N)) in R; rewrite rev_involutive in R; cbn [rev] in R; pose proof (BE_val d) as V; rewrite R in V; cbn in V; lia|].
      assert (B : BE d = rev t ++ [x]) by (rewrite <- (rev_involutive (BE d)), R; reflexivity). rewrite B in D. cbn [app] in D. assert (X : x = 128 + blen (rev t ++ [x])) by (apply (f_equal (hd 0)) in D; exact D). clear R.
      assert (T : t ++ zeros k = (rev t ++ [x]) ++ r) by (apply (f_equal (@tl N)) in D; exact D). apply (f_equal (fun l => nth (length t) l 1)) in T.
      rewrite app_nth2 in T by lia. rewrite app_nth1 in T by (rewrite app_length, rev_length; cbn [length]; lia). rewrite (app_nth2 (rev t)) in T by (rewrite rev_length; lia). rewrite rev_length, Nat.sub_diag in T. cbn [nth] in T.
      unfold blen in X; rewrite app_length in X; cbn [length] in X. destruct k as [|k]; cbn [zeros repeat nth] in T; lia.
  - intros (Lo & Hi). assert (B : BE d = [d]).
    { pose proof (BE_unique [d]) as U. assert (V : be_to_N [d] = d) by (unfold be_to_N; cbn [fold_left]; lia). rewrite V in U. symmetry. apply U; [constructor; [unfold wf_byte; lia|constructor]|]. unfold no_leading_zero. lia. }
    rewrite E, B. cbn [rev app]. assert (R : d :: zeros k = rlp_str (BE d) ++ zeros k). { rewrite B. cbn [rlp_str]. destruct (N.ltb_spec d 128); [reflexivity|lia]. }
    rewrite R. eexists. apply decode_uint_rt; [lia|exact H].
Qed.

(** ** The accounts *)
Lemma alloc_ops g : genesis_ok g -> Forall fits_op (map (fun e => OAccount (fst e) None (Some (genesis_account (snd e)))) (allocations g)).
Proof.
  intros (_ & R & _). apply Forall_forall. intros o I. apply in_map_iff in I as ([a v] & <- & I). destruct (R _ _ I) as (Ha & Hv). cbn [fits_op fst snd]. split; [exact Ha|]. split; [discriminate|]. intros x E. apply (inj Some) in E. subst x. now apply account_wf.
Qed.
Lemma empty_reads bm a : read_account bm empty_db a None = Done None.
Proof. reflexivity. Qed.
Lemma buffer_written bm g : genesis_ok g -> forall a, a < 2 ^ 160 -> read_account bm (buf_write_to_db (allocate (allocations g)) empty_db) a None = Done (accounts (genesis_state g) a).
Proof.
  intros G a Ha. pose proof (buffer_accounts g G) as A. destruct (allocated (allocations g)) as (_ & _ & P & _). pose proof (write_out bm empty_db _ (alloc_ops g G) empty_wf) as W. rewrite <- allocate_run in W. cbn zeta in W.
  destruct W as (_ & W & _); [intros x v w []| |].
  - split; [|intros x i h; rewrite P, lookup_empty; discriminate]. intros x c h E _ Hi. exfalso. pose proof (A x) as Ax. rewrite E in Ax. cbn [default from_option accounts genesis_state] in Ax. unfold id in Ax. destruct (balance_of _ x); [|discriminate]. apply (inj Some) in Ax. subst c. cbn in Hi. lia.
  - rewrite (W a Ha). unfold buf_read_account. specialize (A a). destruct (b_accounts _ !! a) as [x|]; cbn [default from_option] in A; unfold id in A; [now rewrite A|]. rewrite <- A. apply empty_reads.
Qed.

(** ** The database *)
Definition fresh (d : database) : Prop := d kHeaders = [] /\ d kCanonicalHashes = [] /\ d kBlockBodies = [] /\ d kDifficulty = [] /\ d kHeaderNumbers = [] /\ d kConfig = [] /\ d kSenders = [].
Lemma allocations_written keccak visit bm g : hash_32 keccak -> (forall m, account_order m (visit m)) -> genesis_ok g -> g_alloc g <> Some [] -> no_hash_collision keccak (genesis_state g) ->
  exists b d root, write_allocations g empty_db = Done (b, d) /\ fresh d /\ (forall a, a < 2 ^ 160 -> read_account bm d a None = Done (accounts (genesis_state g) a))
    /\ buf_root keccak (visit (b_accounts b)) (fun _ _ => []) = Some root /\ is_state_root keccak (genesis_state g) root.
Proof.
  intros Hk Hv G Ne C. destruct (genesis_root keccak visit g _ Hk Hv G C eq_refl) as (root & Er & Ro). unfold write_allocations. destruct (g_alloc g) as [l|] eqn:E.
  - assert (El : allocations g = l) by (unfold allocations; now rewrite E). pose proof (buffer_written bm g G) as W. rewrite El in W, Er. destruct (allocated l) as (_ & _ & _ & _ & _ & Ch). destruct l as [|e l]; [now destruct Ne|]. destruct Ch as (c & Ec & _). rewrite Ec.
    assert (Nd : Nat.eqb (size c) (length (e :: l)) = true) by (apply (changes_size _ _ Ec); rewrite <- El; apply G). rewrite Nd. exists (allocate (e :: l)), (buf_write_to_db (allocate (e :: l)) empty_db), root.
    split; [reflexivity|]. split; [unfold fresh; auto 8|]. split; [exact W|]. auto.
  - assert (El : allocations g = []) by (unfold allocations; now rewrite E). rewrite El in Er. exists buf_empty, empty_db, root. split; [reflexivity|]. split; [unfold fresh; auto 8|]. split; [|auto]. intros a _. cbn [accounts genesis_state]. rewrite El. apply empty_reads.
Qed.
Lemma single_lookup k v : lookup [(k, v)] k = Some v.
Proof. unfold lookup, find, lower_bound. cbn [fst snd]. assert (L : lex_lt k k = false) by apply lex_lt_irrefl. rewrite L. cbn [fst]. now rewrite eqb_refl. Qed.
Lemma single_other k v k' : k' <> k -> lookup [(k, v)] k' = None.
Proof.
  intros Ne. unfold lookup, find, lower_bound. cbn [fst snd]. destruct (lex_lt k k'); [reflexivity|]. cbn [fst]. destruct (eqb_spec k k') as [ -> |_]; [now destruct Ne|reflexivity].
Qed.
Lemma block_header g root : genesis_header g root = with_nonce (genesis_block g root) (rev (be_fixed 8 (g_nonce g))).
Proof.
  unfold genesis_header, with_nonce, genesis_block, le_fixed. cbn [hd_parent_hash hd_ommers_hash hd_beneficiary hd_state_root hd_transactions_root hd_receipts_root hd_logs_bloom hd_difficulty hd_number hd_gas_limit hd_gas_used hd_timestamp hd_extra_data hd_mix_hash hd_base_fee].
  f_equal; try reflexivity.
Qed.

Section Db.
  Variable keccak : bytes -> bytes.
  Variable visit : gmap N (option account) -> list (N * option account).
  Variable g : genesis.
  Hypothesis Hk : hash_32 keccak.
  Hypothesis Hv : forall m, account_order m (visit m).
  Hypothesis G : genesis_ok g.
  Hypothesis Ne : g_alloc g <> Some [].
  Hypothesis C : no_hash_collision keccak (genesis_state g).
  Lemma initialized bm : exists root h hash d, initialize keccak visit g empty_db = Done (hash, d) /\ is_state_root keccak (genesis_state g) root
    /\ h = with_nonce (genesis_block g root) (rev (be_fixed 8 (g_nonce g))) /\ hash = keccak (RLP (header_item h)) /\ wf_header h /\ small_item (header_item h)
    /\ d kHeaders = [(be_fixed 8 0 ++ hash, RLP (header_item h))] /\ d kCanonicalHashes = [(be_fixed 8 0 ++ hash, hash)] /\ d kBlockBodies = [(be_fixed 8 0 ++ hash, [195; 128; 128; 192])]
    /\ d kDifficulty = [(be_fixed 8 0 ++ hash, rev (be_fixed 32 (g_difficulty g)))] /\ d kHeaderNumbers = [(hash, be_fixed 8 0)] /\ d kConfig = [(hash, g_config g)] /\ d kSenders = []
    /\ (forall a, a < 2 ^ 160 -> read_account bm d a None = Done (accounts (genesis_state g) a)).
  Proof.
    destruct (allocations_written keccak visit bm g Hk Hv G Ne C) as (b & d1 & root & E & (F1 & F2 & F3 & F4 & F5 & F6 & F7) & A & Er & Ro). unfold initialize. rewrite E. cbn [obind fst snd]. rewrite Er.
    assert (Hr : hash32 root) by (destruct Ro as (o & _ & -> ); apply root_hash32; exact Hk). destruct (header_ok keccak Hk g root G Hr) as (W & Sm). rewrite (proj1 (C06_hdr _ [] W Sm)). rewrite block_header in W, Sm |- *.
    set (h := with_nonce (genesis_block g root) (rev (be_fixed 8 (g_nonce g)))) in *. set (hash := keccak (RLP (header_item h))) in *. set (hb := RLP (header_item h)) in *.
    exists root, h, hash. eexists. split; [reflexivity|]. split; [exact Ro|]. split; [reflexivity|]. split; [reflexivity|]. split; [exact W|]. split; [exact Sm|].
    split; [change (upsert (d1 kHeaders) (zeros 8 ++ hash) hb = [(be_fixed 8 0 ++ hash, hb)]); rewrite F1; reflexivity|].
    split; [change (upsert (d1 kCanonicalHashes) (zeros 8 ++ hash) hash = [(be_fixed 8 0 ++ hash, hash)]); rewrite F2; reflexivity|].
    split; [change (upsert (d1 kBlockBodies) (zeros 8 ++ hash) [195; 128; 128; 192] = [(be_fixed 8 0 ++ hash, [195; 128; 128; 192])]); rewrite F3; reflexivity|].
    split; [change (upsert (d1 kDifficulty) (zeros 8 ++ hash) (le_fixed 32 (g_difficulty g)) = [(be_fixed 8 0 ++ hash, le_fixed 32 (g_difficulty g))]); rewrite F4; reflexivity|].
    split; [change (upsert (d1 kHeaderNumbers) hash (firstn 8 (zeros 8 ++ hash)) = [(hash, be_fixed 8 0)]); rewrite F5; reflexivity|].
    split; [change (upsert (d1 kConfig) hash (g_config g) = [(hash, g_config g)]); rewrite F6; reflexivity|].
    split; [exact F7|]. exact A.
  Qed.
End Db.
