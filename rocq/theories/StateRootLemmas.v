(** The trie loader: final statements. *)
From Coq Require Import Sorting.Sorted Permutation.
From Verif Require Import Base BaseFacts RlpSpec RlpModel RlpProofs TypesModel TypesSpec TypesProofs TypesLemmas TrieModel TrieSpec TrieProofs2 TrieProofs5 TrieLemmas TrieNode DbTable DbModel DbSpec DbProofs EtlModel EtlSpec EtlLemmas UnwindModel HashStateModel HashStateSpec HashStateProofs HashStateProofs2 StateRootModel StateRootSpec StateRootProofs StateRootProofs2.

Lemma load_upsert_ok pick t es : least_first pick -> collectable es -> (forall k v, In (k, v) es -> k <> []) -> (forall k v w, In (k, v) es -> In (k, w) es -> v = w) -> ordered t ->
  exists t', load_upsert pick t es = Done t' /\ ordered t' /\ (forall k v, In (k, v) es -> lookup t' k = Some v) /\ (forall k, (forall v, ~ In (k, v) es) -> lookup t' k = lookup t k).
Proof.
  intros Hp (F & T) N U O. assert (Ne : Forall (fun e => fst e <> [] \/ snd e <> []) es) by (apply Forall_forall; intros [k v] I; left; exact (N k v I)).
  assert (T' : total_size es < 2 ^ 64) by (eapply N.lt_trans; [exact T|reflexivity]). destruct (load_all es F Ne T') as (l & _ & _ & H). destruct (H (256 * 2 ^ 20) pick (length es) Hp (le_n _)) as (c & E).
  exists (put_all t l). unfold load_upsert. rewrite E. cbn [obind]. destruct (load_table es (256 * 2 ^ 20) pick (length es) l c t F Ne T' Hp (le_n _) E O) as (A & B & C). split; [reflexivity|]. split; [exact A|]. split; [|exact C].
  intros k v I. apply B; [exact I|]. intros w J. rewrite (U k v w I J). apply lex_lt_irrefl.
Qed.

Section State.
  Variable keccak : bytes -> bytes.
  Hypothesis Hk : hash_32 keccak.
  Variable d : database.
  Hypothesis Wd : wf_db d.
  Variable s : state.
  Hypothesis Hok : state_ok s.
  Hypothesis H0 : contracts_only s.
  Hypothesis Hs : hashed_state keccak s d.
  Hypothesis Sp : spread keccak s.

  Lemma loader_root : exists root an sn, calculate_root keccak d = Done (root, an, sn) /\ is_state_root keccak s root
    /\ (forall k v, In (k, v) an <-> account_node keccak s k v) /\ (forall k v, In (k, v) sn <-> storage_node keccak s k v).
  Proof. destruct (loader keccak Hk d Wd s Hok H0 Hs Sp) as (o & an & sn & Ho & E & A & B & _). exists (root_of keccak o), an, sn. split; [exact E|]. split; [exists o; auto|]. auto. Qed.

  Lemma regenerate pick root an sn : least_first pick -> calculate_root keccak d = Done (root, an, sn) -> collectable an -> collectable sn ->
    is_state_root keccak s root /\ exists d',
      regenerate_db_tries keccak pick d None = Done (root, d') /\ regenerate_db_tries keccak pick d (Some root) = Done (root, d') /\ (forall e, e <> root -> regenerate_db_tries keccak pick d (Some e) = Throws)
      /\ wf_db d'
      /\ (forall k v, account_node keccak s k v -> lookup (d' kTrieOfAccounts) k = Some v) /\ (forall k, (forall v, ~ account_node keccak s k v) -> lookup (d' kTrieOfAccounts) k = lookup (d kTrieOfAccounts) k)
      /\ (forall k v, storage_node keccak s k v -> lookup (d' kTrieOfStorage) k = Some v) /\ (forall k, (forall v, ~ storage_node keccak s k v) -> lookup (d' kTrieOfStorage) k = lookup (d kTrieOfStorage) k)
      /\ (forall t, t <> kTrieOfAccounts -> t <> kTrieOfStorage -> d' t = d t).
  Proof.
    intros Hp E Ca Cs. destruct (loader keccak Hk d Wd s Hok H0 Hs Sp) as (o & an' & sn' & Ho & E' & A & B & Ua & Us & Na & Ns). rewrite E in E'. injection E' as -> <- <-. split; [exists o; auto|].
    destruct (load_upsert_ok pick (d kTrieOfAccounts) an Hp Ca Na Ua (Wd kTrieOfAccounts)) as (ta & Ea & Oa & La & La'). destruct (load_upsert_ok pick (d kTrieOfStorage) sn Hp Cs Ns Us (Wd kTrieOfStorage)) as (ts & Es & Os & Ls & Ls').
    set (d1 := set_table d kTrieOfAccounts ta). set (d2 := set_table d1 kTrieOfStorage ts). exists d2.
    assert (X : forall e, regenerate_db_tries keccak pick d e = if match e with Some x => negb (bytes_eqb (root_of keccak o) x) | None => false end then Throws else Done (root_of keccak o, d2)).
    { intros e. unfold regenerate_db_tries. rewrite E. cbn [obind]. destruct (match e with Some x => negb (bytes_eqb (root_of keccak o) x) | None => false end); [reflexivity|]. rewrite Ea. cbn [obind].
      change (set_table d kTrieOfAccounts ta kTrieOfStorage) with (d kTrieOfStorage). rewrite Es. reflexivity. }
    split; [exact (X None)|]. split; [rewrite (X (Some _)), eqb_refl; reflexivity|]. split; [intros e Ne; rewrite (X (Some e)); destruct (eqb_spec (root_of keccak o) e); [congruence|reflexivity]|].
    assert (T1 : d2 kTrieOfAccounts = ta) by reflexivity. assert (T2 : d2 kTrieOfStorage = ts) by reflexivity.
    assert (T3 : forall t, t <> kTrieOfAccounts -> t <> kTrieOfStorage -> d2 t = d t) by (intros t N1 N2; unfold d2, d1, set_table; destruct (tbl_eq_dec kTrieOfStorage t); [congruence|]; destruct (tbl_eq_dec kTrieOfAccounts t); [congruence|reflexivity]).
    split.
    { intros t. destruct (tbl_eq_dec t kTrieOfAccounts) as [ -> |N1]; [cbn [multi]; rewrite T1; exact Oa|]. destruct (tbl_eq_dec t kTrieOfStorage) as [ -> |N2]; [cbn [multi]; rewrite T2; exact Os|]. rewrite T3 by assumption. apply Wd. }
    rewrite T1, T2. split; [intros k v I; apply La; now apply A|]. split; [intros k N; apply La'; intros v I; apply (N v); now apply A|]. split; [intros k v I; apply Ls; now apply B|]. split; [intros k N; apply Ls'; intros v I; apply (N v); now apply B|exact T3].
  Qed.
End State.

(** ** After the HashState stage *)
Section After.
  Variable keccak : bytes -> bytes.
  Hypothesis Hk : hash_32 keccak.
  Lemma hashes : hash_length keccak. Proof using Hk. intros b. apply Hk. Qed.
  (** The account records of the plain state are those of s. *)
  Definition plain_accounts (s : state) (d : database) : Prop :=
    forall a v, length a = 20%nat -> In (a, v) (d kPlainState) <-> exists n acc, n < 2 ^ 160 /\ a = be_fixed 20 n /\ accounts s n = Some acc /\ v = encode_for_storage acc false.
  Lemma after_first pick d d' s n : least_first pick -> wf_db d -> shapes d -> collectable (d kPlainState) -> collectable (d kPlainContractCode) -> state_ok s -> plain_accounts s d ->
    n < 2 ^ 64 -> get_stage_progress d kExecutionKey = Done n -> d kHashedAccounts = [] -> d kHashedStorage = [] -> d kContractCode = [] -> get_stage_progress d kHashStateKey = Done 0 -> stage_hashstate keccak pick d = Done d' ->
    hashed_state keccak (without_storage s) d' /\ wf_db d'.
  Proof.
    intros Hp W Sh C1 C2 Hok P Hn G1 E1 E2 E3 G2 R. destruct (first_run keccak hashes pick Hp d W Sh C1 C2 n d' Hn G1 E1 E2 E3 G2 R) as (A & _ & _ & W' & L & _). split; [|exact W']. constructor.
    - intros k v. rewrite (A k v). split.
      + intros (a & La & I & ->). apply (P a v La) in I as (m & acc & Hm & -> & Ea & ->). exists m, acc. auto.
      + intros (a & acc & Ha & Ea & -> & ->). exists (be_fixed 20 a). split; [apply be_fixed_length|]. split; [|reflexivity]. apply P; [apply be_fixed_length|]. exists a, acc. auto.
    - intros a acc v Ha Ea Hi. split.
      + intros I. exfalso. apply L in I. rewrite app_length, be_fixed_length, (proj1 (Hk _)) in I. discriminate I.
      + intros (l & _ & Z & _). exfalso. apply Z. reflexivity.
  Qed.
  Lemma after_root pick d d' s n : least_first pick -> wf_db d -> shapes d -> collectable (d kPlainState) -> collectable (d kPlainContractCode) -> state_ok s -> plain_accounts s d ->
    n < 2 ^ 64 -> get_stage_progress d kExecutionKey = Done n -> d kHashedAccounts = [] -> d kHashedStorage = [] -> d kContractCode = [] -> get_stage_progress d kHashStateKey = Done 0 -> stage_hashstate keccak pick d = Done d' ->
    exists o an sn, is_trie (state_content keccak (without_storage s)) o /\ calculate_root keccak d' = Done (root_of keccak o, an, sn)
    /\ forall a acc r l o', a < 2 ^ 160 -> accounts s a = Some acc -> is_root keccak (storage_content keccak s a (a_incarnation acc)) r -> l < 2 ^ 256 -> slots s a (a_incarnation acc) l <> 0 ->
       (forall a b, a < 2 ^ 160 -> b < 2 ^ 160 -> accounts s a <> None -> accounts s b <> None -> keccak (be_fixed 20 a) = keccak (be_fixed 20 b) -> a = b) ->
       (forall x, keccak x = empty_root -> x = [0x80]) -> is_trie (state_content keccak s) o' -> o <> o'.
  Proof.
    intros Hp W Sh C1 C2 Hok P Hn G1 E1 E2 E3 G2 R. destruct (after_first pick d d' s n Hp W Sh C1 C2 Hok P Hn G1 E1 E2 E3 G2 R) as (Hs & W').
    assert (Hok' : state_ok (without_storage s)) by (split; [apply Hok|]; intros; reflexivity). assert (H0 : contracts_only (without_storage s)) by (intros ? ?; reflexivity). assert (Sp : spread keccak (without_storage s)) by (intros a i l l' _ _ Z; exfalso; apply Z; reflexivity).
    destruct (loader keccak Hk d' W' _ Hok' H0 Hs Sp) as (o & an & sn & Ho & E & _). exists o, an, sn. split; [exact Ho|]. split; [exact E|].
    intros a acc r l o' Ha Ea Hr Hl Hz Inj Pre Ho' <-.
    assert (C : state_content keccak s (keccak (be_fixed 20 a)) (RLP (account_item acc r))) by (exists a, acc, r; auto).
    destruct o as [t|]; [|apply (Ho' _ _ C)]. destruct Ho as (_ & Go), Ho' as (_ & Go'). assert (G : get t (nibbles (keccak (be_fixed 20 a))) = Some (RLP (account_item acc r))) by (apply Go'; eauto). apply Go in G as (k & Ek & a2 & acc2 & r2 & Ha2 & Ea2 & Hr2 & E2' & Ev).
    assert (k = keccak (be_fixed 20 a)) as ->.
    { rewrite E2'. rewrite E2' in Ek. destruct (nibbles_prefix (keccak (be_fixed 20 a2)) (keccak (be_fixed 20 a)) [] (proj2 (Hk _)) (proj2 (Hk _))) as (c & Ec & Cc); [now rewrite app_nil_r|]. assert (Lc := f_equal (@length N) Ec). rewrite app_length, !(proj1 (Hk _)) in Lc. destruct c; [|cbn in Lc; lia]. now rewrite app_nil_r in Ec. }
    assert (a2 = a) as -> by (apply Inj; auto; [cbn [accounts without_storage] in Ea2; congruence|congruence]). cbn [accounts without_storage] in Ea2. rewrite Ea in Ea2. injection Ea2 as <-.
    assert (r2 = empty_root) as ->. { destruct Hr2 as (o2 & Ho2 & ->). destruct o2 as [u|]; [|reflexivity]. exfalso. destruct Ho2 as (Cu & Gu). destruct (canonical_inhabited u Cu) as (x & y & Gx). apply Gu in Gx as (b & _ & l' & _ & Z & _). apply Z. reflexivity. }
    destruct Hr as (o3 & Ho3 & ->). destruct o3 as [u|]; [|apply (Ho3 (keccak (be_fixed 32 l)) (RLP (Num (slots s a (a_incarnation acc) l)))); exists l; auto]. cbn [root_of] in Ev.
    rewrite <- !account_rlp_spec in Ev; [| apply Hok with a; exact Ea|exact (root_hash32 keccak Hk None)|apply Hok with a; exact Ea|exact (root_hash32 keccak Hk (Some u))].
    apply account_rlp_inj' in Ev; [|apply Hok with a; exact Ea|apply Hok with a; exact Ea|exact (root_hash32 keccak Hk (Some u))|exact (root_hash32 keccak Hk None)]. destruct Ev as (_ & _ & Ev & _). apply Pre in Ev.
    destruct u as [p v|p c|cs]; cbn [node_item] in Ev; cbn [RLP] in Ev; unfold rlp_lst, hdr in Ev; destruct (_ <? 56); cbn [app] in Ev; injection Ev as Ev _; lia.
  Qed.
End After.

Lemma stale keccak d s pick root an sn k v : hash_32 keccak -> wf_db d -> state_ok s -> contracts_only s -> hashed_state keccak s d -> spread keccak s -> least_first pick -> calculate_root keccak d = Done (root, an, sn) -> collectable an -> collectable sn ->
  lookup (d kTrieOfAccounts) k = Some v -> (forall w, ~ account_node keccak s k w) ->
  exists d', regenerate_db_tries keccak pick d None = Done (root, d') /\ lookup (d' kTrieOfAccounts) k = Some v.
Proof.
  intros Hk Wd Hok H0 Hs Sp Hp E Ca Cs L N. destruct (regenerate keccak Hk d Wd s Hok H0 Hs Sp pick root an sn Hp E Ca Cs) as (_ & d' & R & _ & _ & _ & _ & A & _). exists d'. split; [exact R|]. now rewrite (A k N).
Qed.
Lemma regenerate_empty keccak d s pick root an sn : hash_32 keccak -> wf_db d -> state_ok s -> contracts_only s -> hashed_state keccak s d -> spread keccak s -> least_first pick -> calculate_root keccak d = Done (root, an, sn) -> collectable an -> collectable sn ->
  d kTrieOfAccounts = [] -> d kTrieOfStorage = [] -> exists d', regenerate_db_tries keccak pick d None = Done (root, d')
  /\ (forall k v, In (k, v) (d' kTrieOfAccounts) <-> account_node keccak s k v) /\ (forall k v, In (k, v) (d' kTrieOfStorage) <-> storage_node keccak s k v).
Proof.
  intros Hk Wd Hok H0 Hs Sp Hp E Ca Cs Ea Es. destruct (regenerate keccak Hk d Wd s Hok H0 Hs Sp pick root an sn Hp E Ca Cs) as (_ & d' & R & _ & _ & W' & A1 & A2 & B1 & B2 & _). exists d'. split; [exact R|].
  destruct (loader keccak Hk d Wd s Hok H0 Hs Sp) as (o & an' & sn' & _ & E' & A & B & _). rewrite E in E'. injection E' as _ <- <-.
  assert (G : forall (t t0 : table) (es : list entry) (P : bytes -> bytes -> Prop), ordered t -> t0 = [] -> (forall k v, In (k, v) es <-> P k v) -> (forall k v, P k v -> lookup t k = Some v) -> (forall k, (forall v, ~ P k v) -> lookup t k = lookup t0 k) -> forall k v, In (k, v) t <-> P k v).
  { intros t t0 es P O -> I L L' k v. split.
    - intros J. apply (lookup_spec t k v O) in J. destruct (in_dec bytes_dec k (map fst es)) as [X|X].
      + apply in_map_iff in X as ([k' w] & Ek & X). cbn [fst] in Ek. subst k'. apply I in X. rewrite (L k w X) in J. injection J as ->. exact X.
      + rewrite L' in J; [discriminate|]. intros w Y. apply X. apply I in Y. apply in_map_iff. exists (k, w). auto.
    - intros X. apply (lookup_spec t k v O). now apply L. }
  split; [apply (G (d' kTrieOfAccounts) (d kTrieOfAccounts) an); auto; exact (W' kTrieOfAccounts)|apply (G (d' kTrieOfStorage) (d kTrieOfStorage) sn); auto; exact (W' kTrieOfStorage)].
Qed.
