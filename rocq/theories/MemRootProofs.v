(** Proofs about the state roots of the two buffers. *)
From Coq Require Import Sorting.Sorted.
From stdpp Require Import gmap.
From Verif Require Import Base BaseFacts RlpSpec RlpModel RlpProofs TypesModel TypesSpec TypesProofs TypesLemmas UtilModel UtilProofs TrieModel TrieSpec TrieProofs TrieProofs2 TrieLemmas DbTable DbModel DbSpec DbProofs EtlModel EtlSpec EtlLemmas StateModel StateSpec MemBufModel MemBufSpec BufferModel StateRootSpec StateRootProofs StateRootProofs2 MemRootSpec MemRootModel.

Lemma put_all_in (l : list entry) : forall (t : table) k v, ordered t -> (forall k v w, In (k, v) l -> In (k, w) l -> v = w) -> In (k, v) l -> lookup (put_all t l) k = Some v.
Proof.
  induction l as [|[k0 v0] l IH]; intros t k v O F I; [destruct I|]. cbn [put_all fold_left fst snd]. change (lookup (put_all (upsert t k0 v0) l) k = Some v). pose proof (upsert_ordered t k0 v0 O) as O'.
  destruct (in_dec bytes_dec k (map fst l)) as [J|J].
  - apply in_map_iff in J as ([k' w] & E & J). cbn [fst] in E. subst k'. assert (v = w) as -> by (apply (F k); [exact I|now right]). apply IH; [exact O'| |exact J]. intros k1 v1 w1 I1 J1. apply (F k1); now right.
  - rewrite put_all_other; [|exact O'|intros w Iw; apply J, in_map_iff; exists (k, w); auto]. rewrite lookup_upsert by exact O. destruct I as [E|I]; [|exfalso; apply J, in_map_iff; exists (k, v); auto]. apply pair_equal_spec in E as ( -> & -> ). now rewrite eqb_refl.
Qed.
Lemma std_map_in (l : list entry) : (forall k v w, In (k, v) l -> In (k, w) l -> v = w) -> ordered (std_map l) /\ forall k v, In (k, v) (std_map l) <-> In (k, v) l.
Proof.
  intros F. assert (O0 : ordered []) by constructor. assert (O : ordered (std_map l)) by now apply put_all_ordered. split; [exact O|]. intros k v. rewrite <- (lookup_spec _ k v O). split.
  - intros L. destruct (in_dec bytes_dec k (map fst l)) as [J|J].
    + apply in_map_iff in J as ([k' w] & E & J). cbn [fst] in E. subst k'. unfold std_map in L. rewrite (put_all_in l [] k w O0 F J) in L. injection L as ->. exact J.
    + unfold std_map in L. rewrite put_all_other in L; [discriminate|exact O0|]. intros w I. apply J, in_map_iff. exists (k, w). auto.
  - intros I. now apply put_all_in.
Qed.
Lemma zeroless_BE v : v < 2 ^ 256 -> zeroless_view (be_fixed 32 v) = BE v.
Proof.
  intros H. destruct (zeroless_split (be_fixed 32 v)) as (k & E & N). rewrite <- (be_to_N_be_fixed_small 32 v) at 2; [|exact H]. rewrite <- zeroless_value. apply BE_unique.
  - pose proof (be_fixed_wf 32 v) as W. rewrite E in W. unfold wf_bytes in W. apply Forall_app in W. apply W.
  - unfold no_leading_zero. destruct (zeroless_view (be_fixed 32 v)) as [|b t]; [exact I|]. intros ->. now apply (N t).
Qed.

Section Root.
  Variable keccak : bytes -> bytes.
  Hypothesis Hk : hash_32 keccak.

  (** Roots of sorted maps. *)
  Lemma map_root (l : list entry) content : (forall k v, In (k, v) l <-> content k v) -> (forall k v w, In (k, v) l -> In (k, w) l -> v = w) -> (forall k v, In (k, v) l -> (exists x, k = keccak x) /\ blen v < 2 ^ 62) ->
    exists o, is_trie content o /\ option_map fst (build keccak false (std_map l)) = Some (root_of keccak o).
  Proof using Hk.
    intros C F B. destruct (std_map_in l F) as (O & I). destruct (hashed_build keccak (std_map l) content Hk) as (o & Ho & E & _).
    - split; [exact O|]. apply Forall_forall. intros [k v] J. apply I in J. destruct (B k v J) as ((x & ->) & Bv). cbn [fst snd]. split; [apply Hk|exact Bv].
    - intros k v. rewrite I. apply C.
    - exists o. split; [exact Ho|]. now rewrite E.
  Qed.

  (** The words of the list, zeros included. *)
  Lemma slots_root (l : list (N * N)) : base.NoDup (map fst l) -> (forall k v, In (k, v) l -> v < 2 ^ 256) ->
    (forall k v k' v', In (k, v) l -> In (k', v') l -> keccak (be_fixed 32 k) = keccak (be_fixed 32 k') -> k = k') ->
    exists o, is_trie (fun k v => exists x y, In (x, y) l /\ k = keccak (be_fixed 32 x) /\ v = RLP (Num y)) o /\ account_storage_root keccak l = Some (root_of keccak o).
  Proof using Hk.
    intros Nd R Inj. set (f := fun e : N * N => (keccak (be_fixed 32 (fst e)), encode_bytes (zeroless_view (be_fixed 32 (snd e))))).
    assert (M : forall k v, In (k, v) (map f l) <-> exists x y, In (x, y) l /\ k = keccak (be_fixed 32 x) /\ v = RLP (Num y)).
    { intros k v. rewrite in_map_iff. split.
      - intros ([x y] & E & I). unfold f in E. cbn [fst snd] in E. apply pair_equal_spec in E as ( <- & <- ). exists x, y. split; [exact I|]. split; [reflexivity|]. rewrite zeroless_BE by (now apply R in I). apply encode_bytes_spec.
        rewrite BE_blen. pose proof (proj1 (word_small y (R x y I))) as L. rewrite BE_blen in L. lia.
      - intros (x & y & I & -> & ->). exists (x, y). split; [|exact I]. unfold f. cbn [fst snd]. f_equal. rewrite zeroless_BE by (now apply R in I). apply encode_bytes_spec. rewrite BE_blen. pose proof (proj1 (word_small y (R x y I))) as L. rewrite BE_blen in L. lia. }
    assert (U : forall x y y', In (x, y) l -> In (x, y') l -> y = y').
    { clear -Nd. induction l as [|[x0 y0] l IH]; intros x y y' I I'; [destruct I|]. cbn [map fst] in Nd. apply list.NoDup_cons in Nd as (Nx & Nd). destruct I as [E|I], I' as [E'|I']; [congruence| | |now apply (IH Nd x)]; exfalso; apply Nx, elem_of_list_In, in_map_iff; [exists (x, y')|exists (x, y)]; cbn [fst]; split; auto; congruence. }
    destruct (map_root (map f l) (fun k v => exists x y, In (x, y) l /\ k = keccak (be_fixed 32 x) /\ v = RLP (Num y)) M) as (o & Ho & E).
    - intros k v w I J. apply M in I as (x & y & I & -> & ->), J as (x' & y' & J & Ek & ->). assert (x = x') as <- by now apply (Inj x y x' y'). now rewrite (U x y y' I J).
    - intros k v I. apply M in I as (x & y & I & -> & ->). split; [eauto|]. assert (X : blen (RLP (Num y)) <= 42); [|eapply N.le_lt_trans; [exact X|reflexivity]].
      pose proof (proj1 (word_small y (R x y I))) as L. cbn [Num RLP]. pose proof (rlp_str_len keccak (fun b => proj1 (Hk b)) (BE y)) as X. lia.
    - destruct l as [|e l]; [|exists o; split; [exact Ho|exact E]]. exists None. split; [|reflexivity]. intros k v (x & y & [] & _).
  Qed.

  Variable s : state.
  Hypothesis Hr : in_range s.
  Hypothesis Hc : no_hash_collision keccak s.
  Variable storage : N -> N -> list (N * N).
  Hypothesis Hs : forall a i, base.NoDup (map fst (storage a i)) /\ forall l v, In (l, v) (storage a i) <-> slots s a i l = v /\ v <> 0.

  Lemma storage_ok a acc : accounts s a = Some acc -> exists o, is_trie (storage_content keccak s a (a_incarnation acc)) o /\ account_storage_root keccak (storage a (a_incarnation acc)) = Some (root_of keccak o).
  Proof using Hk Hr Hc Hs.
    intros Ea. destruct (Hs a (a_incarnation acc)) as (Nd & S). destruct (Hr a acc Ea) as (_ & _ & V). destruct (slots_root (storage a (a_incarnation acc)) Nd) as (o & Ho & E).
    - intros l v I. apply S in I as ( <- & Z). now apply V.
    - intros l v l' v' I I'. apply S in I as ( <- & Z), I' as ( <- & Z'). now apply (proj2 Hc a acc).
    - exists o. split; [|exact E]. revert Ho. apply trie_ext. intros k v. split.
      + intros (x & y & I & -> & ->). apply S in I as ( <- & Z). exists x. split; [now apply V|]. auto.
      + intros (l & _ & Z & -> & ->). exists l, (slots s a (a_incarnation acc) l). split; [now apply S|]. auto.
  Qed.
  Lemma entries_ok accs : (forall a acc, In (a, acc) accs -> accounts s a = Some acc) ->
    exists es, account_entries keccak accs storage = Some es
    /\ forall k v, In (k, v) es <-> exists a acc r, In (a, acc) accs /\ is_root keccak (storage_content keccak s a (a_incarnation acc)) r /\ k = keccak (be_fixed 20 a) /\ v = RLP (account_item acc r).
  Proof using Hk Hr Hc Hs.
    induction accs as [|[a acc] accs IH]; intros A.
    - exists []. split; [reflexivity|]. intros k v. split; [intros []|intros (a & acc & r & [] & _)].
    - destruct IH as (es & E & I); [intros b x J; apply A; now right|]. destruct (storage_ok a acc (A a acc (or_introl eq_refl))) as (o & Ho & Eo). cbn [account_entries]. rewrite Eo, E. eexists. split; [reflexivity|].
      assert (Ea : accounts s a = Some acc) by (apply A; now left). assert (X : account_rlp acc (root_of keccak o) = RLP (account_item acc (root_of keccak o))) by (apply account_rlp_spec; [apply (Hr a acc Ea)|exact (root_hash32 keccak Hk o)]).
      intros k v. cbn [In]. rewrite I. split.
      + intros [J|(b & x & r & J & R & -> & ->)]; [|exists b, x, r; auto]. apply pair_equal_spec in J as ( <- & <- ). exists a, acc, (root_of keccak o). split; [now left|]. split; [exists o; auto|]. auto.
      + intros (b & x & r & [J|J] & R & -> & ->); [left|right; exists b, x, r; auto]. apply pair_equal_spec in J as ( <- & <- ). rewrite X. assert (r = root_of keccak o) as -> by (apply (root_unique keccak _ _ _ R); exists o; auto). reflexivity.
  Qed.
  Lemma accounts_ok accs : (forall a acc, In (a, acc) accs <-> accounts s a = Some acc) -> exists o, is_trie (state_content keccak s) o /\ root_of_accounts keccak accs storage = Some (root_of keccak o).
  Proof using Hk Hr Hc Hs.
    intros A. destruct (entries_ok accs (fun a acc => proj1 (A a acc))) as (es & E & I). unfold root_of_accounts. rewrite E. apply map_root.
    - intros k v. rewrite I. split.
      + intros (a & acc & r & J & R & -> & ->). apply A in J. exists a, acc, r. split; [apply (Hr a acc J)|]. auto.
      + intros (a & acc & r & _ & J & R & -> & ->). apply A in J. exists a, acc, r. auto.
    - intros k v w J J'. apply I in J as (a & acc & r & J & R & -> & ->), J' as (a' & acc' & r' & J' & R' & Ek & ->). apply A in J, J'. assert (a = a') as <- by (apply (proj1 Hc); congruence). assert (acc = acc') as <- by congruence. now rewrite (root_unique keccak _ _ _ R R').
    - intros k v J. apply I in J as (a & acc & r & J & R & -> & ->). split; [eauto|]. apply A in J. destruct R as (o & _ & ->). rewrite <- account_rlp_spec; [|apply (Hr a acc J)|exact (root_hash32 keccak Hk o)]. apply (acc_rlp_len keccak Hk); [apply (Hr a acc J)|exact (root_hash32 keccak Hk o)].
  Qed.
End Root.
