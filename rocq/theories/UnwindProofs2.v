(** The unwound state. *)
From stdpp Require Import gmap.
From Coq Require Import Sorting.Sorted.
From Verif Require Import Base BaseFacts RlpModel TypesModel TypesSpec TypesProofs UtilModel UtilProofs DbTable DbModel DbSpec DbProofs BufferModel BufferSpec BufferProofs2 BufferProofs3 UnwindModel UnwindSpec UnwindProofs.

Lemma sorted_firstn {A} (R : A -> A -> Prop) k l : StronglySorted R l -> StronglySorted R (firstn k l).
Proof. intros H. rewrite <- (firstn_skipn k l) in H. now apply sorted_app in H. Qed.
Lemma known_execution : is_known_stage kExecutionKey = true.
Proof. vm_compute. reflexivity. Qed.
Lemma progress_set d n : wf_db d -> n < 2 ^ 64 -> exists d', set_stage_progress d kExecutionKey n = Done d' /\ wf_db d' /\ get_stage_progress d' kExecutionKey = Done n /\ (forall t, t <> kSyncStageProgress -> d' t = d t).
Proof.
  intros W Hn. unfold set_stage_progress, set_stage_data, get_stage_progress, get_stage_data. rewrite known_execution. cbn [negb]. eexists. split; [reflexivity|]. split; [now apply put_wf|]. split; [|intros t Ht; now apply put_other].
  rewrite lookup_put by (exact W || reflexivity). rewrite eqb_refl, be_fixed_length. cbn [Nat.eqb]. now rewrite be_to_N_be_fixed_small.
Qed.
Lemma set_table_wf d t x : wf_db d -> (if multi t then dup_ordered x else ordered x) -> wf_db (set_table d t x).
Proof. intros W H t'. destruct (tbl_eq_dec t' t) as [ -> |N]; [now rewrite set_table_same|]. rewrite set_table_other by exact N. apply W. Qed.
Lemma cut_wf d t start : wf_db d -> wf_db (set_table d t (unwind_table_from (d t) start)).
Proof. intros W. apply set_table_wf; [exact W|]. specialize (W t). unfold unwind_table_from. destruct (multi t); now apply sorted_firstn. Qed.

Section Unwind.
  Variables (bm_read : bytes -> bitmap) (d : database) (acct : N -> N -> option account) (slot : N -> N -> N -> N -> N) (n top : N).
  Hypothesis W : wf_db d.
  Hypothesis Hn : 0 < n.
  Hypothesis Ht : n < top.
  Hypothesis Top : top < 2 ^ 64.
  Hypothesis AH : account_history d acct n top.
  Hypothesis SR : slot_records d slot n top.
  Hypothesis RO : records_of d n.
  Lemma account_walk : exists pre post state codes, d kPlainAccountChangeSet = pre ++ post /\ walk_collect (d kPlainAccountChangeSet) n (d kPlainState) (d kPlainContractCode) = Done (state, codes)
    /\ undone d acct top post state codes /\ (forall a, a < 2 ^ 160 -> (acct n a = None -> forall m, n <= m -> m <= top -> acct m a = None) -> restored acct top post a = acct n a).
  Proof.
    clear SR Hn. pose proof (wf_multi d kPlainAccountChangeSet W eq_refl) as O.
    assert (So : StronglySorted (fun a b => block_of a <= block_of b) (d kPlainAccountChangeSet)).
    { apply table_by_block; [exact O|]. intros k v I. destruct (ah_records _ _ _ _ AH k v I) as (m & a & s & -> & _ & Hm & _). exists m, []. split; [now rewrite app_nil_r|lia]. }
    destruct (walk_collect_split (d kPlainAccountChangeSet) n (d kPlainState) (d kPlainContractCode) So) as (pre & post & E & Fp & Fq & Ew).
    { apply Forall_forall. intros [k v] I. destruct (ah_records _ _ _ _ AH k v I) as (m & a & s & -> & _). cbn [fst]. rewrite be_fixed_length. lia. }
    { destruct RO as ((v & I) & _). exists (be_fixed 8 n, v). split; [exact I|]. apply block_of_key0. lia. }
    assert (R : Forall (account_record acct n top) post).
    { apply Forall_forall. intros [k v] I. assert (I' : In (k, v) (d kPlainAccountChangeSet)) by (rewrite E; apply in_or_app; now right). destruct (ah_records _ _ _ _ AH k v I') as (m & a & s & -> & -> & Hm & Ha & Hs). rewrite Forall_forall in Fp. specialize (Fp _ I). rewrite block_of_key0 in Fp by lia. exists m, a, s. split; [reflexivity|]. auto. }
    assert (So' : StronglySorted (fun a b => block_of a <= block_of b) post) by (rewrite E in So; now apply sorted_app in So).
    destruct (unwind_accounts d acct n top AH W Top post R So') as (state & codes & Eu & Un). exists pre, post, state, codes. split; [exact E|]. split; [now rewrite Ew|]. split; [exact Un|].
    intros a Ha Hx. apply (restored_final d acct n top AH Top pre post a); [exact E|exact R|exact Fq|exact So'|lia|exact Ha|exact Hx].
  Qed.
  (** Slots without records after block n did not change. *)
  Lemma slot_constant a i l p : a < 2 ^ 160 -> i < 2 ^ 64 -> l < 2 ^ 256 -> n <= p -> p <= top ->
    (forall m s, n < m -> m <= p -> ~ In (storage_change_key m (addr a) i, word l ++ s) (d kPlainStorageChangeSet)) -> slot p a i l = slot n a i l.
  Proof.
    clear W Hn Ht Top AH RO. intros Ha Hi Hl Hp Hp'. replace p with (n + (p - n)) in * by lia. remember (p - n) as k eqn:Ek. clear Ek Hp p. revert Hp'. induction k as [|k IHk] using N.peano_ind; intros Hp' Hc; [now rewrite N.add_0_r|].
    assert (E : slot (n + k) a i l = slot n a i l) by (apply IHk; [lia|]; intros m s M1 M2; apply Hc; lia). destruct (N.eq_dec (slot (n + N.succ k) a i l) (slot (n + k) a i l)) as [X|X]; [congruence|]. exfalso.
    destruct (sr_changes _ _ _ _ SR (n + N.succ k) a i l) as (s & I); [lia|lia|exact Ha|exact Hi|exact Hl| |]. { now replace (n + N.succ k - 1) with (n + k) by lia. } apply (Hc (n + N.succ k) s); [lia|lia|exact I].
  Qed.
  Lemma slot_walk state codes : dup_ordered state -> (forall k v, length k <> 20%nat -> In (k, v) state <-> In (k, v) (d kPlainState)) ->
    exists state', walk_collect (d kPlainStorageChangeSet) n state codes = Done (state', codes) /\ dup_ordered state' /\ (forall k v, length k = 20%nat -> In (k, v) state' <-> In (k, v) state)
      /\ (forall a i l, a < 2 ^ 160 -> i < 2 ^ 64 -> l < 2 ^ 256 -> ((exists l0, l0 < 2 ^ 256 /\ single_slot d n a i l0) \/ (forall m v, n < m -> ~ In (storage_change_key m (addr a) i, v) (d kPlainStorageChangeSet))) ->
           forall s, In (storage_prefix (addr a) i, word l ++ s) state' <-> slot n a i l <> 0 /\ s = zeroless_view (word (slot n a i l))).
  Proof.
    clear AH Hn. intros O Same. pose proof (wf_multi d kPlainStorageChangeSet W eq_refl) as Oc.
    assert (So : StronglySorted (fun a b => block_of a <= block_of b) (d kPlainStorageChangeSet)).
    { apply table_by_block; [exact Oc|]. intros k v I. destruct (sr_records _ _ _ _ SR k v I) as (m & a & i & l & s & -> & _ & Hm & _). exists m, (be_fixed 20 a ++ be_fixed 8 i). split; [reflexivity|lia]. }
    destruct (walk_collect_split (d kPlainStorageChangeSet) n state codes So) as (pre & post & E & Fp & Fq & Ew).
    { apply Forall_forall. intros [k v] I. destruct (sr_records _ _ _ _ SR k v I) as (m & a & i & l & s & -> & _). cbn [fst]. rewrite app_length, be_fixed_length. lia. }
    { destruct RO as (_ & (k & v & I)). exists (be_fixed 8 n ++ k, v). split; [exact I|]. apply block_of_key. lia. }
    assert (Rec : forall e, In e post -> exists m a i l s, e = (storage_change_key m (addr a) i, word l ++ s) /\ n < m /\ m <= top /\ a < 2 ^ 160 /\ i < 2 ^ 64 /\ l < 2 ^ 256 /\ s = zeroless_view (word (slot (m - 1) a i l))).
    { intros [k v] I. assert (I' : In (k, v) (d kPlainStorageChangeSet)) by (rewrite E; apply in_or_app; now right). destruct (sr_records _ _ _ _ SR k v I') as (m & a & i & l & s & -> & -> & Hm & Ha & Hi & Hl & Hs). rewrite Forall_forall in Fp. specialize (Fp _ I). rewrite block_of_key in Fp by lia. exists m, a, i, l, s. split; [reflexivity|]. auto 10. }
    assert (R : Forall slot_record post).
    { apply Forall_forall. intros e I. destruct (Rec e I) as (m & a & i & l & s & -> & _ & _ & Ha & Hi & _). exists m, a, i, l, s. auto. }
    assert (So' : StronglySorted (fun a b => block_of a <= block_of b) post) by (rewrite E in So; now apply sorted_app in So).
    assert (InPost : forall m a i v, n < m -> m <= top -> In (storage_change_key m (addr a) i, v) (d kPlainStorageChangeSet) -> In (storage_change_key m (addr a) i, v) post).
    { intros m a i v M1 M2 I. rewrite E in I. apply in_app_iff in I as [I|I]; [|exact I]. rewrite Forall_forall in Fq. specialize (Fq _ I). unfold storage_change_key in Fq. rewrite block_of_key in Fq by lia. lia. }
    assert (Sk : forall m a i, skipn 8 (storage_change_key m (addr a) i) = storage_prefix (addr a) i) by (intros m a i; apply (parts_at (be_fixed 8 m) (addr a ++ be_fixed 8 i) 8 (be_fixed_length 8 m))).
    (* the walk does not depend on the contract looked at: address 2^160 has no records *)
    assert (General : exists state', unwind_all post state codes = Done (state', codes) /\ dup_ordered state' /\ (forall k v, (forall e, In e post -> skipn 8 (fst e) <> k) -> In (k, v) state' <-> In (k, v) state)).
    { clear -R O. induction post as [|e l IH]; [exists state; split; [reflexivity|]; split; [exact O|reflexivity]|]. apply Forall_cons_iff in R as (Re & R). destruct (IH R) as (st & E & O1 & A). cbn [unwind_all]. rewrite E. cbn [obind]. destruct Re as (m & b & j & l0 & s & -> & Hb & Hj). rewrite unwind_slot_step. eexists. split; [reflexivity|]. pose proof (erase_first_sorted st (storage_prefix (addr b) j) O1) as O2.
      assert (Sk : skipn 8 (storage_change_key m (addr b) j) = storage_prefix (addr b) j) by apply (parts_at (be_fixed 8 m) (addr b ++ be_fixed 8 j) 8 (be_fixed_length 8 m)).
      split; [destruct s; [exact O2|now apply put_dup_ordered]|]. intros k v N. assert (Nk : k <> storage_prefix (addr b) j) by (specialize (N _ (or_introl eq_refl)); cbn [fst] in N; rewrite Sk in N; congruence). rewrite <- A by (intros e' I; apply N; now right). destruct s as [|s0 s]; [now apply erase_first_other|]. rewrite put_dup_in by exact O2. rewrite erase_first_other by assumption. split; [intros [X|X]; [apply pair_equal_spec in X as (X & _); contradiction|exact X]|auto]. }
    destruct General as (state' & Eu & O' & Other). exists state'. split; [now rewrite Ew|]. split; [exact O'|]. split.
    { intros k v Lk. apply Other. intros e I K. destruct (Rec e I) as (m & a & i & l & s & -> & _). cbn [fst] in K. rewrite Sk in K. rewrite <- K, prefix_len in Lk. discriminate. }
    intros a i l Ha Hi Hl Cond s. assert (L28 : length (storage_prefix (addr a) i) <> 20%nat) by (rewrite prefix_len; discriminate).
    assert (Cur : forall s, In (storage_prefix (addr a) i, word l ++ s) state <-> slot top a i l <> 0 /\ s = zeroless_view (word (slot top a i l))).
    { intros s'. rewrite Same by exact L28. now apply (sr_current _ _ _ _ SR). }
    destruct Cond as [(l0 & Hl0 & S1 & S2)|NoRec].
    - assert (U : forall v w, In (storage_prefix (addr a) i, v) state -> In (storage_prefix (addr a) i, w) state -> v = w).
      { intros v w Iv Iw. rewrite Same in Iv, Iw by exact L28. destruct (S1 v Iv) as (sv & ->). destruct (S1 w Iw) as (sw & ->). apply (sr_current _ _ _ _ SR) in Iv; [|assumption..]. apply (sr_current _ _ _ _ SR) in Iw; [|assumption..]. destruct Iv as (_ & ->). destruct Iw as (_ & ->). reflexivity. }
      destruct (unwind_slots state codes a i O U post R) as (st2 & Eu2 & _ & _ & Con). rewrite Eu in Eu2. assert (st2 = state') by congruence. subst st2. rewrite Con.
      destruct (N.eq_dec l l0) as [ -> |Nl].
      + destruct (first_record a i post) as [(l1 & e & l2 & Ep & Ke & Nf)|Nf].
        * rewrite Ep. rewrite contract_records_first by assumption. assert (Ie : In e post) by (rewrite Ep; apply in_or_app; right; now left). destruct (Rec e Ie) as (m & a' & i' & l' & s' & -> & M1 & M2 & Ha' & Hi' & Hl' & Es'). cbn [fst snd] in *. rewrite Sk in Ke. apply prefix_inj in Ke as (-> & ->); try assumption.
          assert (I : In (storage_change_key m (addr a) i, word l' ++ s') (d kPlainStorageChangeSet)) by (rewrite E; apply in_or_app; now right). destruct (S2 m _ M1 I) as (s'' & Ew'). apply app_parts in Ew' as (Ew' & _); [|unfold word; now rewrite !be_fixed_length]. apply word_inj in Ew'; [|assumption..]. subst l'.
          assert (C : slot (m - 1) a i l0 = slot n a i l0).
          { apply slot_constant; [assumption..|lia|lia|]. intros j t J1 J2 Ij. apply InPost in Ij; [|lia|lia]. rewrite Ep in Ij. apply in_app_iff in Ij as [Ij|Ij]; [apply Nf in Ij; apply Ij; cbn [fst]; apply Sk|]. rewrite Ep in So'. apply sorted_app in So' as (_ & So' & _). apply sorted_cons_inv in So' as (_ & So'). unfold storage_change_key in So', Ij. destruct Ij as [Ij|Ij].
            - apply pair_equal_spec in Ij as (Ij & _). apply app_parts in Ij as (Ij & _); [|now rewrite !be_fixed_length]. apply be8_inj in Ij; lia.
            - specialize (So' _ Ij). cbn beta in So'. rewrite !block_of_key in So' by lia. lia. }
          destruct (parts_at (word l0) s' 32 (be_fixed_length 32 l0)) as (_ & ->). rewrite Es', C. split.
          -- intros (X & Y). apply app_parts in Y as (_ & ->); [|unfold word; now rewrite !be_fixed_length]. split; [|reflexivity]. intros Z. rewrite Z in X. apply X. vm_compute. reflexivity.
          -- intros (X & ->). split; [|reflexivity]. intros Z. apply X. pose proof (zeroless_value (word (slot n a i l0))) as V. rewrite Z in V. unfold word in V. rewrite be_to_N_be_fixed_small in V by apply (sr_wf _ _ _ _ SR). now rewrite <- V.
        * rewrite contract_records_none by exact Nf. rewrite Cur. assert (C : slot top a i l0 = slot n a i l0); [|now rewrite C]. apply slot_constant; [assumption..|lia|lia|]. intros j t J1 J2 Ij. apply InPost in Ij; [|lia|lia]. apply Nf in Ij. apply Ij. cbn [fst]. apply Sk.
      + assert (C : slot top a i l = slot n a i l).
        { apply slot_constant; [assumption..|lia|lia|]. intros j t J1 J2 Ij. destruct (S2 j _ J1 Ij) as (s'' & X). apply app_parts in X as (X & _); [|unfold word; now rewrite !be_fixed_length]. apply word_inj in X; [contradiction|assumption..]. }
        assert (Z : slot top a i l = 0).
        { destruct (N.eq_dec (slot top a i l) 0) as [Z|Z]; [exact Z|]. exfalso. assert (I : In (storage_prefix (addr a) i, word l ++ zeroless_view (word (slot top a i l))) (d kPlainState)) by (apply (sr_current _ _ _ _ SR); auto). destruct (S1 _ I) as (s'' & X). apply app_parts in X as (X & _); [|unfold word; now rewrite !be_fixed_length]. apply word_inj in X; [contradiction|assumption..]. }
        rewrite <- C, Z. split; [|intros (X & _); now contradiction X]. intros X. exfalso. apply contract_records_spec in X as [(l1 & e & l2 & Ep & Ke & Ne & Ev & _)|(X & _)].
        * assert (Ie : In e post) by (rewrite Ep; apply in_or_app; right; now left). destruct (Rec e Ie) as (m & a' & i' & l' & s' & -> & M1 & M2 & Ha' & Hi' & Hl' & Es'). cbn [fst snd] in *. rewrite Sk in Ke. apply prefix_inj in Ke as (-> & ->); try assumption.
          assert (I : In (storage_change_key m (addr a) i, word l' ++ s') (d kPlainStorageChangeSet)) by (rewrite E; apply in_or_app; now right). destruct (S2 m _ M1 I) as (s'' & Ew'). rewrite Ew' in Ev. apply app_parts in Ev as (Ev & _); [|unfold word; now rewrite !be_fixed_length]. apply word_inj in Ev; [contradiction|assumption..].
        * apply Cur in X as (X & _). contradiction.
    - rewrite Other.
      + rewrite Cur. assert (C : slot top a i l = slot n a i l); [|now rewrite C]. apply slot_constant; [assumption..|lia|lia|]. intros j t J1 J2 Ij. now apply NoRec in Ij.
      + intros e I K. destruct (Rec e I) as (m & a' & i' & l' & s' & -> & M1 & M2 & Ha' & Hi' & _). cbn [fst] in K. rewrite Sk in K. apply prefix_inj in K as (-> & ->); try assumption. apply (NoRec m (word l' ++ s') M1). rewrite E. apply in_or_app. now right.
  Qed.
  Lemma unwind_main : get_stage_progress d kExecutionKey = Done top ->
    exists d', unwind_execution d n = Done d' /\ wf_db d' /\ get_stage_progress d' kExecutionKey = Done n
      /\ (forall a, a < 2 ^ 160 -> (acct n a = None -> forall m, n <= m -> m <= top -> acct m a = None) -> read_account bm_read d' a None = Done (acct n a))
      /\ (forall a i l, a < 2 ^ 160 -> i < 2 ^ 64 -> l < 2 ^ 256 -> ((exists l0, l0 < 2 ^ 256 /\ single_slot d n a i l0) \/ (forall m v, n < m -> ~ In (be_fixed 8 m ++ be_fixed 20 a ++ be_fixed 8 i, v) (d kPlainStorageChangeSet))) ->
           read_storage bm_read d' a i l None = Done (slot n a i l)).
  Proof.
    intros Pr. destruct account_walk as (pre & post & st & cs & E & Ew & (O1 & O2 & A & B & C) & Fin). destruct (slot_walk st cs O1 B) as (st' & Ew' & O1' & S20 & Sl).
    unfold unwind_execution. rewrite Pr. cbn [obind]. destruct (N.eqb_spec n 0); [lia|]. destruct (N.leb_spec top n); [lia|]. rewrite Ew. cbn [obind]. rewrite Ew'. cbn [obind].
    set (d1 := set_table (set_table d kPlainState st') kPlainContractCode cs). cbn zeta.
    set (cut := fun (d : database) t => set_table d t (unwind_table_from (d t) (be_fixed 8 (n + 1)))). change (set_table d1 kPlainAccountChangeSet (unwind_table_from (d1 kPlainAccountChangeSet) (be_fixed 8 (n + 1)))) with (cut d1 kPlainAccountChangeSet).
    set (d2 := set_table _ kCallTraceSet _).
    assert (E2 : d2 = cut (cut (cut (cut (cut d1 kPlainAccountChangeSet) kPlainStorageChangeSet) kBlockReceipts) kLogs) kCallTraceSet) by reflexivity. clearbody d2.
    assert (W1 : wf_db d1) by (unfold d1; apply set_table_wf; [apply set_table_wf; [exact W|exact O1']|exact O2]).
    assert (W2 : wf_db d2) by (rewrite E2; unfold cut; do 5 apply cut_wf; exact W1).
    assert (T1 : d2 kPlainState = st') by (rewrite E2; reflexivity). assert (T2 : d2 kPlainContractCode = cs) by (rewrite E2; reflexivity).
    destruct (progress_set d2 n W2) as (d' & Es & W' & Pn & Keep); [lia|]. exists d'. split; [exact Es|]. split; [exact W'|]. split; [exact Pn|].
    assert (K1 : d' kPlainState = st') by (rewrite Keep by discriminate; exact T1). assert (K2 : d' kPlainContractCode = cs) by (rewrite Keep by discriminate; exact T2).
    split.
    - intros a Ha Hx. specialize (Fin a Ha Hx). unfold read_account. rewrite K1.
      assert (Rec : forall v, In (addr a, v) st' <-> exists x, acct n a = Some x /\ v = encode_for_storage x false) by (intros v; rewrite S20 by apply addr_len; rewrite A by exact Ha; now rewrite Fin).
      destruct (acct n a) as [x|] eqn:Ex.
      + assert (I : In (addr a, encode_for_storage x false) st') by (apply Rec; eauto). rewrite (lookup_dup st' (addr a) (encode_for_storage x false) O1'); [|intros v w Iv Iw; apply Rec in Iv as (y & Y & ->); apply Rec in Iw as (z & Z & ->); congruence|exact I].
        pose proof (ah_wf _ _ _ _ AH _ _ _ Ex) as Wx. pose proof (decode_encode_account x false Wx) as De. destruct (encode_for_storage x false) as [|b0 br] eqn:Ee; [discriminate Ee|]. rewrite De. cbn [err_handler obind].
        destruct ((0 <? a_incarnation x) && bytes_eqb (a_code_hash x) kEmptyHash) eqn:Ec; [|reflexivity]. apply andb_true_iff in Ec as (Ec & _). apply N.ltb_lt in Ec. rewrite K2. rewrite C; [|exact Ha|apply Wx|rewrite Fin; intros y Y; injection Y as <-; lia]. pose proof (ah_codes _ _ _ _ AH n a x ltac:(lia) ltac:(lia) Ex Ec) as Hc. unfold storage_prefix, addr. rewrite Hc.
        assert (L : length (a_code_hash x) = 32%nat) by (destruct Wx as (_ & _ & (L & _) & _); unfold blen in L; lia). rewrite L. cbn [Nat.eqb]. now destruct x.
      + rewrite (lookup_dup_none st' (addr a) O1'); [reflexivity|]. intros v I. apply Rec in I as (x & X & _). discriminate.
    - intros a i l Ha Hi Hl Cond. apply read_slot; [rewrite K1; exact O1'|apply (sr_wf _ _ _ _ SR)|]. rewrite K1. now apply Sl.
  Qed.
End Unwind.
