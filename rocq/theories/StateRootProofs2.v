(** The trie loader computes the state root. *)
From Coq Require Import Sorting.Sorted.
From Verif Require Import Base BaseFacts RlpSpec RlpModel RlpProofs UtilModel UtilProofs TypesModel TypesSpec TypesProofs TypesLemmas TrieModel TrieSpec TrieProofs TrieProofs2 TrieProofs3 TrieProofs5 TrieLemmas TrieNode DbTable DbModel DbSpec DbProofs EtlModel HashStateProofs StateRootModel StateRootSpec StateRootProofs.

Lemma firstn_app_exact {A} (n : nat) (a b : list A) : length a = n -> firstn n (a ++ b) = a.
Proof. intros <-. rewrite firstn_app, Nat.sub_diag, firstn_all, firstn_O. apply app_nil_r. Qed.
Lemma skipn_app_exact {A} (n : nat) (a b : list A) : length a = n -> skipn n (a ++ b) = b.
Proof. intros <-. rewrite skipn_app, Nat.sub_diag, skipn_all, skipn_O. reflexivity. Qed.

(** ** Records of nodes *)
Lemma mask_filter m k : forall b, mask (filter (N.testbit m) (iota b k)) = 2 ^ b * ((m / 2 ^ b) mod 2 ^ N.of_nat k).
Proof.
  induction k as [|k IH]; intros b; [cbn [iota filter mask fold_right N.of_nat]; rewrite N.pow_0_r, N.mod_1_r; lia|].
  cbn [iota filter]. assert (E : 2 ^ b * ((m / 2 ^ b) mod 2 ^ N.of_nat (S k)) = (if N.testbit m b then 2 ^ b else 0) + 2 ^ (b + 1) * ((m / 2 ^ (b + 1)) mod 2 ^ N.of_nat k)).
  { rewrite Nat2N.inj_succ, N.pow_succ_r', N.pow_add_r, N.pow_1_r, <- N.div_div by (try apply N.pow_nonzero; lia). set (q := m / 2 ^ b). rewrite N.mod_mul_r by (try apply N.pow_nonzero; lia).
    assert (T : N.testbit m b = N.odd q) by (unfold q; rewrite <- N.shiftr_div_pow2, <- N.bit0_odd, N.shiftr_spec' ; f_equal; lia). rewrite T. assert (Q : q mod 2 = if N.odd q then 1 else 0) by (rewrite <- N.bit0_mod, N.bit0_odd; now destruct (N.odd q)). rewrite Q. destruct (N.odd q); lia. }
  rewrite E, <- IH. destruct (N.testbit m b); cbn [mask fold_right]; reflexivity.
Qed.
Lemma mask_digits m : m < 2 ^ 16 -> mask (digits m) = m.
Proof. intros H. unfold digits. rewrite digits16_iota, mask_filter. change (2 ^ 0) with 1. rewrite N.div_1_r, N.mul_1_l. now apply N.mod_small. Qed.
Lemma record_marshal n : small_masks n -> record_of (as_report n) = marshal_node (snd n).
Proof. intros (H1 & H2 & H3). unfold record_of, as_report, marshal_node. cbn [rp_children rp_tree rp_hash rp_hashes rp_root]. now rewrite !mask_digits. Qed.

(** ** Every node is reported under a path of its own *)
Lemma slots_paths keccak path cs : (forall c, In (Some c) cs -> forall q r, In r (collected keccak q c) -> exists x, rp_path r = q ++ x) ->
  forall b r, In r (collected_slots keccak path b cs) -> exists d x, b <= d /\ rp_path r = path ++ d :: x.
Proof.
  induction cs as [|o cs IH]; intros H b r I; [destruct I|]. cbn [collected_slots] in I. apply in_app_or in I as [I|I].
  - destruct o as [c|]; [|destruct I]. destruct (H c (or_introl eq_refl) _ _ I) as (x & ->). exists b, x. split; [lia|]. rewrite <- app_assoc. reflexivity.
  - destruct (IH (fun c Hc => H c (or_intror Hc)) (b + 1) r I) as (d & x & Hd & E). exists d, x. split; [lia|exact E].
Qed.
Lemma collected_paths keccak t : forall q r, In r (collected keccak q t) -> exists x, rp_path r = q ++ x.
Proof.
  induction t as [p v|p c IH|cs IH] using mpt_ind'; intros q r I; [destruct I| |].
  - cbn [collected] in I. apply IH in I as (x & ->). exists (p ++ x). now rewrite app_assoc.
  - rewrite collected_branch in I. apply in_app_or in I as [I|I].
    + rewrite Forall_forall in IH. destruct (slots_paths keccak q cs (fun c Hc => IH (Some c) Hc) 0 r I) as (d & x & _ & ->). eauto.
    + destruct (stored (Branch cs)); [|destruct I]. destruct I as [ <- |[]]. exists []. now rewrite app_nil_r.
Qed.
Lemma nodup_app {A} (l m : list A) : NoDup l -> NoDup m -> (forall x, In x l -> ~ In x m) -> NoDup (l ++ m).
Proof.
  induction l as [|a l IH]; intros Hl Hm H; [exact Hm|]. inversion Hl; subst. cbn [app]. constructor; [|apply IH; auto; intros x Hx; apply H; now right]. rewrite in_app_iff. intros [X|X]; [contradiction|]. apply (H a (or_introl eq_refl) X).
Qed.
Lemma collected_nodup keccak t : forall q, NoDup (map rp_path (collected keccak q t)).
Proof.
  induction t as [p v|p c IH|cs IH] using mpt_ind'; intros q; [constructor|apply IH|]. rewrite collected_branch, map_app. apply nodup_app.
  - rewrite Forall_forall in IH. generalize 0. induction cs as [|o cs IHc]; intros b; [constructor|]. cbn [collected_slots]. rewrite map_app. apply nodup_app.
    + destruct o as [c|]; [|constructor]. apply (IH (Some c)). now left.
    + apply IHc. intros x Hx. apply IH. now right.
    + intros x X Y. apply in_map_iff in X as (r & <- & X). apply in_map_iff in Y as (r' & E & Y). destruct o as [c|]; [|destruct X]. destruct (collected_paths _ _ _ _ X) as (z & Ez). rewrite <- app_assoc in Ez. cbn [app] in Ez.
      destruct (slots_paths keccak q cs (fun c _ => collected_paths keccak c) _ _ Y) as (d & x & Hd & E'). rewrite E', Ez in E. apply app_inv_head in E. injection E as E _. lia.
  - destruct (stored (Branch cs)); [|constructor]. repeat constructor. intros [].
  - intros x X Y. apply in_map_iff in X as (r & <- & X). destruct (slots_paths keccak q cs (fun c _ => collected_paths keccak c) _ _ X) as (d & z & _ & E). destruct (stored (Branch cs)); [|destruct Y]. destruct Y as [Y|[]]. cbn [report_of rp_path] in Y. rewrite E in Y. apply (f_equal (@length N)) in Y. rewrite app_length in Y. cbn in Y. lia.
Qed.
Lemma reports_nodup keccak o : NoDup (map rp_path (reports_of keccak o)).
Proof. destruct o as [t|]; [apply collected_nodup|constructor]. Qed.

Section State.
  Variable keccak : bytes -> bytes.
  Hypothesis Hk : hash_32 keccak.
  Variable d : database.
  Hypothesis Wd : wf_db d.
  Variable s : state.
  Hypothesis Hok : state_ok s.
  Hypothesis H0 : contracts_only s.
  Hypothesis Hs : hashed_state keccak s d.
  Hypothesis Sp : spread keccak s.

  Lemma word_small n : n < 2 ^ 256 -> blen (BE n) <= 32 /\ (0 < n -> BE n <> []).
  Proof.
    intros H. split.
    - rewrite BE_blen. unfold byte_len. destruct (N.eq_dec n 0) as [ -> |N]; [discriminate|]. assert (N.size n <= 256) by (rewrite N.size_log2 by exact N; pose proof (proj1 (N.log2_lt_pow2 n 256 ltac:(lia)) H); lia). assert ((N.size n + 7) / 8 < 33) by (apply N.div_lt_upper_bound; lia). lia.
    - intros P E. pose proof (BE_val n) as V. rewrite E in V. cbn in V. lia.
  Qed.

  Definition nodes_at (prefix : bytes) (out : list (bytes * node)) : list entry := map (fun n => (prefix ++ fst n, marshal_node (snd n))) out.

  Lemma storage_root_ok a acc : a < 2 ^ 160 -> accounts s a = Some acc ->
    exists o out, is_trie (storage_content keccak s a (a_incarnation acc)) o
      /\ storage_root_of keccak d (keccak (be_fixed 20 a)) acc = Done (root_of keccak o, nodes_at (storage_prefix (keccak (be_fixed 20 a)) (a_incarnation acc)) out)
      /\ map as_report out = reports_of keccak o /\ Forall small_masks out.
  Proof.
    intros Ha Ea. destruct Hok as (_ & Hv). unfold storage_root_of. destruct (N.eqb_spec (a_incarnation acc) 0) as [Ei|Ei].
    - exists None, []. split; [|repeat split; constructor]. cbn [is_trie]. intros k v (l & _ & X & _). rewrite Ei in X. apply X, H0.
    - set (i := a_incarnation acc) in *. set (p := storage_prefix (keccak (be_fixed 20 a)) i).
      assert (Rec : forall v, In (p, v) (d kHashedStorage) <-> exists l, l < 2 ^ 256 /\ slots s a i l <> 0 /\ v = keccak (be_fixed 32 l) ++ BE (slots s a i l)) by (intros v; apply (hst_slots _ _ _ Hs a acc v Ha Ea Ei)).
      assert (Len : forall v, In (p, v) (d kHashedStorage) -> (length v >= 32)%nat) by (intros v I; apply Rec in I as (l & _ & _ & ->); rewrite app_length; rewrite (proj1 (Hk _)); lia).
      destruct (values_of (d kHashedStorage) p (Wd kHashedStorage)) as (vs & r & E & Hn & Hr & Hsort & Hin); [intros v I X; apply Len in I; subst v; cbn in I; lia|].
      set (es := map split_value vs).
      assert (Sv : forall l, split_value (keccak (be_fixed 32 l) ++ BE (slots s a i l)) = (keccak (be_fixed 32 l), RLP (Num (slots s a i l)))).
      { intros l. unfold split_value. rewrite firstn_app_exact, skipn_app_exact by apply Hk. rewrite encode_bytes_spec; [reflexivity|]. destruct (word_small _ (Hv a i l)). eapply N.le_lt_trans; [eassumption|reflexivity]. }
      assert (Ct : forall k v, In (k, v) es <-> storage_content keccak s a i k v).
      { intros k v. unfold es. rewrite in_map_iff. split.
        - intros (x & X & I). apply Hin, Rec in I as (l & Hl & Hz & ->). rewrite Sv in X. apply pair_equal_spec in X as (<- & <-). exists l. auto.
        - intros (l & Hl & Hz & -> & ->). exists (keccak (be_fixed 32 l) ++ BE (slots s a i l)). split; [apply Sv|]. apply Hin, Rec. exists l. auto. }
      assert (He : hashed_entries es).
      { split.
        - assert (Q : forall x, In x vs -> exists l, l < 2 ^ 256 /\ slots s a i l <> 0 /\ x = keccak (be_fixed 32 l) ++ BE (slots s a i l)) by (intros x I; now apply Hin, Rec in I).
          unfold es. clear - Hsort Q Sv Sp Hk. induction Hsort as [|x l Hl IH F]; [constructor|]. cbn [map]. constructor; [apply IH; intros y I; apply Q; now right|]. apply Forall_forall. intros e He. apply in_map_iff in He as (y & <- & Hy).
          destruct (Q x (or_introl eq_refl)) as (lx & Bx & Zx & Ex). destruct (Q y (or_intror Hy)) as (ly & By & Zy & Ey). rewrite Forall_forall in F. specialize (F y Hy). rewrite Ex, Ey in *. rewrite !Sv. cbn [fst].
          apply lex_app in F; [|now rewrite !(proj1 (Hk _))]. destruct F as [F|(F1 & F2)]; [exact F|]. exfalso. assert (lx = ly) as <- by (apply (Sp a i); auto; now rewrite F1). rewrite lex_lt_irrefl in F2. discriminate.
        - apply Forall_forall. intros [k v] I. apply Ct in I as (l & Hl & Hz & -> & ->). cbn [fst snd]. split; [apply Hk|]. cbn [RLP Num]. unfold Num. cbn [RLP]. destruct (word_small _ (Hv a i l)) as (B & _). eapply N.le_lt_trans; [apply (rlp_str_len keccak (fun b => proj1 (Hk b))); eapply N.le_lt_trans; [exact B|reflexivity]|]. apply N.le_lt_trans with (32 + 9); [lia|reflexivity]. }
      destruct (hashed_build keccak es _ Hk He Ct) as (o & Ho & _ & Hb). destruct Hb as (out & Eb & Er & Sm).
      { right. intros k1 v1 k2 v2 I1 I2 X. apply Ct in I1 as (l1 & B1 & Z1 & -> & _). apply Ct in I2 as (l2 & B2 & Z2 & -> & _). f_equal. f_equal. apply (Sp a i); auto. }
      exists o, out. split; [exact Ho|]. split; [|auto]. rewrite E, storage_loop_spec; [|intros v I; apply Len; now apply Hin|exact Hr|exact Hn].
      fold es. unfold build in Eb. destruct (add_all keccak true es hb_new) as [s1|]; [|discriminate]. cbn [obind]. destruct (root_hash keccak true s1) as [[r1 s2]|]; [|discriminate].
      injection Eb as -> ->. reflexivity.
  Qed.

  (** What the loop over the accounts reads from a record. *)
  Definition acc_of (e : entry) : account := match decode_account (snd e) with Ok a => a | _ => account_default end.
  Definition sroot_of (e : entry) : bytes := match storage_root_of keccak d (fst e) (acc_of e) with Done (r, _) => r | _ => [] end.
  Definition snodes_of (e : entry) : list entry := match storage_root_of keccak d (fst e) (acc_of e) with Done (_, n) => n | _ => [] end.
  Definition account_entry (e : entry) : bytes * bytes := (fst e, account_rlp (acc_of e) (sroot_of e)).
  Lemma account_loop_spec p : forall h ns, (forall e, In e p -> decode_account (snd e) = Ok (acc_of e) /\ storage_root_of keccak d (fst e) (acc_of e) = Done (sroot_of e, snodes_of e)) ->
    account_loop keccak d p h ns = match add_all keccak true (map account_entry p) h with Some h => Done (h, ns ++ concat (map snodes_of p)) | None => Undefined end.
  Proof using.
    induction p as [|e p IH]; intros h ns H; [cbn [account_loop map add_all concat]; now rewrite app_nil_r|]. cbn [account_loop map add_all concat]. destruct (H e (or_introl eq_refl)) as (E1 & E2). rewrite E1. cbn [err_handler obind]. rewrite E2. cbn [obind].
    change (account_entry e) with (fst e, account_rlp (acc_of e) (sroot_of e)). cbn iota beta. destruct (add keccak true (fst e) (account_rlp (acc_of e) (sroot_of e)) h) as [h'|]; [|reflexivity].
    rewrite IH by (intros x Hx; apply H; now right). now rewrite app_assoc.
  Qed.
  Lemma record_ok e : In e (d kHashedAccounts) -> exists a acc o out, a < 2 ^ 160 /\ accounts s a = Some acc /\ fst e = keccak (be_fixed 20 a) /\ snd e = encode_for_storage acc false /\ decode_account (snd e) = Ok (acc_of e) /\ acc_of e = acc
    /\ storage_root_of keccak d (fst e) (acc_of e) = Done (sroot_of e, snodes_of e)
    /\ is_trie (storage_content keccak s a (a_incarnation acc)) o /\ sroot_of e = root_of keccak o /\ snodes_of e = nodes_at (storage_prefix (fst e) (a_incarnation acc)) out /\ map as_report out = reports_of keccak o /\ Forall small_masks out.
  Proof.
    destruct e as [k v]. intros I. apply (hst_accounts _ _ _ Hs) in I as (a & acc & Ha & Ea & -> & ->). destruct (storage_root_ok a acc Ha Ea) as (o & out & Ho & E & Er & Sm). exists a, acc, o, out.
    assert (D : decode_account (encode_for_storage acc false) = Ok acc) by (apply (decode_encode_account acc false); apply Hok with a; exact Ea).
    assert (A : acc_of (keccak (be_fixed 20 a), encode_for_storage acc false) = acc) by (unfold acc_of; cbn [snd]; now rewrite D).
    unfold sroot_of, snodes_of. rewrite !A. cbn [fst snd]. rewrite D, E. auto 20.
  Qed.
  Lemma root_hash32 o : hash32 (root_of keccak o).
  Proof using Hk.
    destruct o as [t|]; cbn [root_of].
    - unfold trie_root. split; [unfold blen; now rewrite (proj1 (Hk _))|apply Hk].
    - unfold empty_root. split; [unfold blen; now rewrite be_fixed_length|apply be_fixed_wf].
  Qed.
  Lemma acc_rlp_len a r : wf_account a -> hash32 r -> 32 <= blen (account_rlp a r) /\ blen (account_rlp a r) < 2 ^ 62.
  Proof using Hk.
    intros W Hr. rewrite account_rlp_spec by assumption. destruct W as (Hn & Hb & (Hc & _) & _). destruct Hr as (Hr & _).
    assert (B1 : blen (BE (a_nonce a)) <= 32) by (apply word_small; eapply N.lt_trans; [exact Hn|reflexivity]). assert (B2 : blen (BE (a_balance a)) <= 32) by (apply word_small; exact Hb).
    unfold account_item, Num. set (l := [Str (BE (a_nonce a)); Str (BE (a_balance a)); Str r; Str (a_code_hash a)]). split.
    - pose proof (rlp_lst_ge l) as Y. cbn [l map concat] in Y. rewrite !blen_app in Y. pose proof (rlp_str_ge keccak (fun b => proj1 (Hk b)) (a_code_hash a)). lia.
    - cbn [RLP l map concat]. unfold rlp_lst. rewrite blen_app.
      assert (L : forall x, blen x <= 32 -> blen (rlp_str x) <= 41).
      { intros x Hx. assert (Hx2 : blen x < 2 ^ 64) by (eapply N.le_lt_trans; [exact Hx|reflexivity]). pose proof (rlp_str_len keccak (fun b => proj1 (Hk b)) x Hx2). lia. }
      set (pl := rlp_str (BE (a_nonce a)) ++ rlp_str (BE (a_balance a)) ++ rlp_str r ++ rlp_str (a_code_hash a) ++ []).
      assert (P : blen pl <= 164). { unfold pl. rewrite !blen_app, blen_nil. pose proof (L _ B1). pose proof (L _ B2). pose proof (L r ltac:(lia)). pose proof (L (a_code_hash a) ltac:(lia)). lia. }
      assert (Q : blen (hdr 192 247 (blen pl)) <= 9).
      { unfold hdr. destruct (_ <? _); [unfold blen; cbn [length]; lia|]. rewrite blen_cons, BE_blen. pose proof (byte_len_u64 (blen pl) ltac:(eapply N.le_lt_trans; [exact P|reflexivity])). lia. }
      apply N.le_lt_trans with 200; [lia|reflexivity].
  Qed.

  Lemma lower_bound_nil (t : table) : lower_bound t [] = t.
  Proof using. destruct t as [|[k v] t]; [reflexivity|]. cbn [lower_bound fst]. now destruct k. Qed.
  Lemma nodes_in prefix out k v : In (k, v) (nodes_at prefix out) <-> exists n, In n out /\ k = prefix ++ fst n /\ v = marshal_node (snd n).
  Proof using. unfold nodes_at. rewrite in_map_iff. split; [intros (n & E & I); apply pair_equal_spec in E as (<- & <-); eauto|]. intros (n & I & -> & ->). eauto. Qed.
  Lemma account_nodes_in out k v : In (k, v) (account_nodes out) <-> k <> [] /\ exists n, In n out /\ k = fst n /\ v = marshal_node (snd n).
  Proof using.
    unfold account_nodes. rewrite in_concat. split.
    - intros (l & I & J). apply in_map_iff in I as (n & <- & I). destruct (fst n) as [|b x] eqn:E; [destruct J|]. destruct J as [J|[]]. apply pair_equal_spec in J as (<- & <-). split; [discriminate|]. exists n. auto.
    - intros (N & n & I & -> & ->). exists [(fst n, marshal_node (snd n))]. split; [|left; reflexivity]. apply in_map_iff. exists n. split; [|exact I]. destruct n as [[|x y] z]; [exfalso; apply N; reflexivity|reflexivity].
  Qed.
  Lemma report_in out o k v : map as_report out = reports_of keccak o -> Forall small_masks out -> (exists n, In n out /\ k = fst n /\ v = marshal_node (snd n)) <-> exists r, In r (reports_of keccak o) /\ k = rp_path r /\ v = record_of r.
  Proof using.
    intros E Sm. rewrite Forall_forall in Sm. rewrite <- E. split.
    - intros (n & I & -> & ->). exists (as_report n). split; [now apply in_map|]. split; [reflexivity|]. symmetry. now apply record_marshal, Sm.
    - intros (r & I & -> & ->). apply in_map_iff in I as (n & <- & I). exists n. split; [exact I|]. split; [reflexivity|]. now apply record_marshal, Sm.
  Qed.

  Theorem loader : exists o an sn, is_trie (state_content keccak s) o /\ calculate_root keccak d = Done (root_of keccak o, an, sn)
    /\ (forall k v, In (k, v) an <-> account_node keccak s k v) /\ (forall k v, In (k, v) sn <-> storage_node keccak s k v)
    /\ (forall k v w, In (k, v) an -> In (k, w) an -> v = w) /\ (forall k v w, In (k, v) sn -> In (k, w) sn -> v = w)
    /\ (forall k v, In (k, v) an -> k <> []) /\ (forall k v, In (k, v) sn -> k <> []).
  Proof.
    set (t := d kHashedAccounts). assert (Ot : ordered t) by exact (Wd kHashedAccounts). set (es := map account_entry t).
    assert (Ct : forall k v, In (k, v) es <-> state_content keccak s k v).
    { intros k v. unfold es. rewrite in_map_iff. split.
      - intros (e & E & I). destruct (record_ok e I) as (a & acc & o & out & Ha & Ea & Ef & _ & _ & Eacc & _ & Ho & Er & _). unfold account_entry in E. rewrite Eacc, Er in E. apply pair_equal_spec in E as (<- & <-). exists a, acc, (root_of keccak o).
        split; [exact Ha|]. split; [exact Ea|]. split; [exists o; auto|]. split; [exact Ef|]. apply account_rlp_spec; [apply Hok with a; exact Ea|apply root_hash32].
      - intros (a & acc & r & Ha & Ea & Hr & -> & ->). assert (I : In (keccak (be_fixed 20 a), encode_for_storage acc false) t) by (apply (hst_accounts _ _ _ Hs); eauto 6). eexists. split; [|exact I].
        destruct (storage_root_ok a acc Ha Ea) as (o & out & Ho & Eo & _). assert (r = root_of keccak o) as -> by (apply (root_unique keccak _ _ _ Hr); exists o; auto).
        assert (A : acc_of (keccak (be_fixed 20 a), encode_for_storage acc false) = acc) by (unfold acc_of; cbn [snd]; rewrite (decode_encode_account acc false); [reflexivity|apply Hok with a; exact Ea]).
        unfold account_entry, sroot_of. rewrite A. cbn [fst]. rewrite Eo. f_equal. apply account_rlp_spec; [apply Hok with a; exact Ea|apply root_hash32]. }
    assert (He : hashed_entries es).
    { split.
      - unfold es. clear - Ot. induction Ot as [|e l Hl IH F]; [constructor|]. cbn [map]. constructor; [exact IH|]. apply Forall_forall. intros x Hx. apply in_map_iff in Hx as (y & <- & Hy). rewrite Forall_forall in F. exact (F y Hy).
      - apply Forall_forall. intros [k v] I. apply Ct in I as (a & acc & r & Ha & Ea & (o & _ & ->) & -> & ->). cbn [fst snd]. split; [apply Hk|]. rewrite <- account_rlp_spec; [apply acc_rlp_len|apply Hok with a; exact Ea|apply root_hash32]; [apply Hok with a; exact Ea|apply root_hash32]. }
    destruct (hashed_build keccak es _ Hk He Ct) as (o & Ho & _ & Hb). destruct Hb as (out & Eb & Er & Sm).
    { left. intros k v I. apply Ct in I as (a & acc & r & Ha & Ea & (o' & _ & ->) & -> & ->). rewrite <- account_rlp_spec; [apply acc_rlp_len|apply Hok with a; exact Ea|apply root_hash32]; [apply Hok with a; exact Ea|apply root_hash32]. }
    exists o, (account_nodes out), (concat (map snodes_of t)).
    assert (Rep := report_in out o). 
    assert (An : forall k v, In (k, v) (account_nodes out) <-> account_node keccak s k v).
    { intros k v. rewrite account_nodes_in, (Rep k v Er Sm). unfold account_node. split.
      - intros (N & r & I & -> & ->). exists o, r. auto.
      - intros (o' & r & Ho' & I & N & -> & ->). rewrite (trie_unique _ _ _ Ho' Ho) in I. split; [exact N|]. eauto. }
    assert (Sn : forall k v, In (k, v) (concat (map snodes_of t)) <-> storage_node keccak s k v).
    { intros k v. rewrite in_concat. split.
      - intros (l & I & J). apply in_map_iff in I as (e & <- & I). destruct (record_ok e I) as (a & acc & o' & out' & Ha & Ea & Ef & _ & _ & _ & _ & Ho' & _ & En & Er' & Sm'). rewrite En in J. apply nodes_in in J as (n & J & -> & ->).
        destruct (proj1 (report_in out' o' _ _ Er' Sm') (ex_intro _ n (conj J (conj eq_refl eq_refl)))) as (r & Ir & E1 & E2). exists a, acc, o', r. rewrite E1, E2, Ef. unfold storage_prefix. rewrite <- app_assoc. auto 8.
      - intros (a & acc & o' & r & Ha & Ea & Ho' & Ir & -> & ->). assert (I : In (keccak (be_fixed 20 a), encode_for_storage acc false) t) by (apply (hst_accounts _ _ _ Hs); eauto 6). eexists. split; [apply in_map; exact I|].
        destruct (storage_root_ok a acc Ha Ea) as (o2 & out' & Ho2 & Eo & Er' & Sm'). rewrite (trie_unique _ _ _ Ho' Ho2) in Ir.
        assert (A : acc_of (keccak (be_fixed 20 a), encode_for_storage acc false) = acc) by (unfold acc_of; cbn [snd]; rewrite (decode_encode_account acc false); [reflexivity|apply Hok with a; exact Ea]).
        unfold snodes_of. rewrite A. cbn [fst]. rewrite Eo. destruct (proj2 (report_in out' o2 _ _ Er' Sm') (ex_intro _ r (conj Ir (conj eq_refl eq_refl)))) as (n & J & E1 & E2). apply nodes_in. exists n. split; [exact J|]. rewrite E1, E2. unfold storage_prefix. now rewrite <- app_assoc. }
    split; [exact Ho|]. split; [|split; [exact An|split; [exact Sn|split; [|split; [|split]]]]].
    - unfold calculate_root. rewrite lower_bound_nil. rewrite account_loop_spec.
      + fold t es. unfold build in Eb. destruct (add_all keccak true es hb_new) as [s1|]; [|discriminate]. cbn [obind]. destruct (root_hash keccak true s1) as [[r1 s2]|]; [|discriminate]. injection Eb as -> ->. reflexivity.
      + intros e I. destruct (record_ok e I) as (a & acc & o' & out' & _ & _ & _ & _ & D & _ & R & _). auto.
    - intros k v w I1 I2. apply An in I1 as (o1 & r1 & H1 & R1 & _ & E1 & ->). apply An in I2 as (o2 & r2 & H2 & R2 & _ & E2 & ->). rewrite (trie_unique _ _ _ H1 Ho) in R1. rewrite (trie_unique _ _ _ H2 Ho) in R2.
      f_equal. apply (nodup_map_inj rp_path (reports_of keccak o)); [apply reports_nodup|exact R1|exact R2|congruence].
    - intros k v w I1 I2. apply in_concat in I1 as (l1 & I1 & J1). apply in_concat in I2 as (l2 & I2 & J2). apply in_map_iff in I1 as (e1 & <- & I1). apply in_map_iff in I2 as (e2 & <- & I2).
      destruct (record_ok e1 I1) as (a1 & acc1 & o1 & out1 & _ & _ & F1 & _ & _ & _ & _ & _ & _ & En1 & Er1 & Sm1). destruct (record_ok e2 I2) as (a2 & acc2 & o2 & out2 & _ & _ & F2 & _ & _ & _ & _ & _ & _ & En2 & _ & _).
      assert (Ek : fst e1 = fst e2).
      { rewrite En1 in J1. rewrite En2 in J2. apply nodes_in in J1 as (n1 & _ & E1 & _). apply nodes_in in J2 as (n2 & _ & E2 & _). rewrite E1 in E2. unfold storage_prefix in E2. rewrite <- !app_assoc in E2. apply app_parts in E2 as (E2 & _); [exact E2|]. rewrite F1, F2. now rewrite !(proj1 (Hk _)). }
      assert (e1 = e2) as <-. { destruct e1 as [k1 v1], e2 as [k2 v2]. cbn [fst] in Ek. subst k2. f_equal. exact (ordered_fun t k1 v1 v2 Ot I1 I2). }
      rewrite En1 in J1, J2. apply nodes_in in J1 as (n1 & M1 & X1 & ->). apply nodes_in in J2 as (n2 & M2 & X2 & ->). rewrite X1 in X2. apply app_inv_head in X2. rewrite Forall_forall in Sm1. rewrite <- (record_marshal n1), <- (record_marshal n2) by auto. f_equal.
      apply (nodup_map_inj rp_path (reports_of keccak o1)); [apply reports_nodup|rewrite <- Er1; now apply in_map|rewrite <- Er1; now apply in_map|exact X2].
    - intros k v I. apply An in I as (_ & r & _ & _ & N & -> & _). exact N.
    - intros k v I. apply Sn in I as (a & acc & o' & r & _ & _ & _ & _ & -> & _). intros X. apply (f_equal (@length N)) in X. rewrite app_length, (proj1 (Hk _)) in X. discriminate X.
  Qed.
End State.
