(** State roots of the two buffers: final statements. *)
From Coq Require Import Sorting.Sorted.
From stdpp Require Import gmap.
From Verif Require Import Base BaseFacts RlpSpec RlpModel RlpProofs TypesModel TypesSpec TypesProofs TypesLemmas UtilModel UtilProofs TrieModel TrieSpec TrieProofs TrieProofs2 TrieLemmas DbTable DbModel DbSpec DbProofs EtlModel EtlSpec EtlLemmas StateModel StateSpec StateLemmas MemBufModel MemBufSpec MemBufProofs BufferModel StateRootSpec StateRootProofs StateRootProofs2 MemRootSpec MemRootModel MemRootProofs.

Lemma order_slots st storage : slot_order st storage -> (forall k, st !! k <> Some 0) -> forall a i, base.NoDup (map fst (storage a i)) /\ forall l v, In (l, v) (storage a i) <-> default 0 (st !! (a, i, l)) = v /\ v <> 0.
Proof.
  intros O Z a i. destruct (O a i) as (N & I). split; [exact N|]. intros l v. rewrite I. specialize (Z (a, i, l)). destruct (st !! (a, i, l)) as [x|]; cbn [default from_option id].
  - split; [intros E; apply (inj Some) in E; subst x; split; [reflexivity|congruence]|intros ( -> & _); reflexivity].
  - split; [discriminate|intros ( <- & N0); now elim N0].
Qed.

Section Root.
  Variable keccak : bytes -> bytes.
  Hypothesis Hk : hash_32 keccak.

  Lemma memory_root m accs storage : in_range (mem_state m) -> no_hash_collision keccak (mem_state m) -> (forall k, m_storage m !! k <> Some 0) -> account_order (m_accounts m) accs -> slot_order (m_storage m) storage ->
    exists root, mem_root keccak accs storage = Some root /\ is_state_root keccak (mem_state m) root.
  Proof.
    intros R C Z (_ & A) O. destruct (accounts_ok keccak Hk (mem_state m) R C storage (order_slots _ _ O Z) accs A) as (o & Ho & E). exists (root_of keccak o). split; [|exists o; auto]. unfold mem_root. destruct accs; [|exact E].
    change (Some kEmptyRoot) with (Some (root_of keccak None)). do 2 f_equal. apply (trie_unique (state_content keccak (mem_state m))); [|exact Ho]. intros k v (a & acc & r & _ & Ea & _). apply A in Ea. destruct Ea.
  Qed.
  Lemma world_root code_of room m past w accs storage : mem_ok keccak code_of room m past w -> world_range w -> no_world_collision keccak w -> account_order (m_accounts m) accs -> slot_order (m_storage m) storage ->
    exists root, mem_root keccak accs storage = Some root /\ is_world_root keccak w root.
  Proof.
    intros [(Sa & Sc & _) (_ & Db & _) _ Nz] (Ra & Rs) (Ca & Cs) A O. cbn [mem_reader StateModel.read_account StateModel.read_storage] in Sa, Sc, Db.
    assert (Ea : forall a acc, m_accounts m !! a = Some acc -> w_acct w a = Some (acct_of code_of acc)) by (intros a acc E; rewrite Sa, E; reflexivity).
    assert (Es : forall a acc l, m_accounts m !! a = Some acc -> w_current w a l = default 0 (m_storage m !! (a, a_incarnation acc, l))) by (intros a acc l E; now rewrite Sc, E).
    assert (Ex : forall a, accounts (mem_state m) a <> None -> w_acct w a <> None) by (intros a; cbn [accounts mem_state]; rewrite Sa; destruct (m_accounts m !! a); [discriminate|congruence]).
    destruct (memory_root m accs storage) as (root & E & o & Ho & ->); [| |intros k E; now apply (Nz k 0)|exact A|exact O|].
    - intros a acc E. cbn [accounts mem_state slots] in *. destruct (Ra a _ (Ea a acc E)) as (R1 & R2 & R3). destruct (Db a acc E) as (D1 & _ & D2). split; [exact R1|]. split.
      + split; [exact R2|]. split; [exact R3|]. split; [rewrite <- D1; destruct (Hk (code_of (a_code_hash acc))); split; [|assumption]; unfold blen; now rewrite H|]. unfold u64. lia.
      + intros l Z. rewrite <- (Es a acc l E) in Z |- *. now apply Rs.
    - split; [intros a b X Y; apply Ca; now apply Ex|]. intros a acc l l' E. cbn [accounts mem_state slots] in *. rewrite <- !(Es a acc _ E). apply Cs.
    - exists (root_of keccak o). split; [exact E|]. exists o. split; [|reflexivity]. revert Ho. apply trie_ext.
      assert (St : forall a acc k v, m_accounts m !! a = Some acc -> storage_content keccak (mem_state m) a (a_incarnation acc) k v <-> world_storage keccak w a k v).
      { intros a acc k v X. unfold storage_content, world_storage. cbn [slots mem_state]. split.
        - intros (l & _ & Z & -> & ->). exists l. rewrite (Es a acc l X). auto.
        - intros (l & Z & -> & ->). exists l. split; [now apply (Rs a l)|]. rewrite (Es a acc l X) in Z |- *. auto. }
      assert (Rt : forall a acc r, m_accounts m !! a = Some acc -> is_root keccak (storage_content keccak (mem_state m) a (a_incarnation acc)) r <-> is_root keccak (world_storage keccak w a) r).
      { intros a acc r X. split; intros (o' & H & ->); exists o'; (split; [|reflexivity]); revert H; apply trie_ext; intros k v; [apply (St a acc k v X)|symmetry; apply (St a acc k v X)]. }
      intros k v. split.
      + intros (a & acc & r & _ & X & R & -> & ->). cbn [accounts mem_state] in X. exists a, (acct_of code_of acc), r. split; [now apply Ea|]. split; [now apply (Rt a acc r X)|]. split; [reflexivity|]. cbn [acct_of ac_nonce ac_balance ac_code]. now rewrite (proj1 (Db a acc X)).
      + intros (a & c & r & X & R & -> & ->). pose proof (Sa a) as Y. rewrite X in Y. destruct (m_accounts m !! a) as [acc|] eqn:Z; [|discriminate]. apply (inj Some) in Y. subst c. exists a, acc, r. split; [apply (Ra a _ X)|]. split; [exact Z|]. split; [now apply (Rt a acc r Z)|]. split; [reflexivity|]. cbn [acct_of ac_nonce ac_balance ac_code]. now rewrite (proj1 (Db a acc Z)).
  Qed.
  (** After any blocks. *)
  Lemma blocks_root code_of room m past w blocks vss past2 w2 vss' m2 accs storage :
    mem_ok keccak code_of room m past w -> codes_ok keccak code_of (concat (map snd blocks)) -> total_ops blocks <= room -> replay keccak past w blocks vss past2 w2 -> mreplay keccak m blocks vss' m2 ->
    world_range w2 -> no_world_collision keccak w2 -> account_order (m_accounts m2) accs -> slot_order (m_storage m2) storage ->
    exists root, mem_root keccak accs storage = Some root /\ is_world_root keccak w2 root.
  Proof. intros Hm Hc Hl Hr Hmr. apply (world_root code_of (room - total_ops blocks) m2 past2). now destruct (blocks_refine keccak code_of room m past w blocks vss past2 w2 vss' m2 Hm Hc Hl Hr Hmr). Qed.

  (** *** db::Buffer *)
  Lemma has_value_in accs a acc : In (a, acc) (has_value accs) <-> In (a, Some acc) accs.
  Proof.
    induction accs as [|[b [x|]] accs IH]; [reflexivity| |]; cbn [has_value map concat fst snd app]; change (concat (map (fun e => match snd e with Some acc => [(fst e, acc)] | None => [] end) accs)) with (has_value accs); cbn [In]; rewrite IH; [|intuition congruence].
    split; (intros [E|E]; [left|right; exact E]); [apply pair_equal_spec in E as ( -> & -> ); reflexivity|]. apply pair_equal_spec in E as ( -> & E). apply (inj Some) in E. now subst x.
  Qed.
  Lemma buffer_root b accs storage : in_range (buf_state b) -> no_hash_collision keccak (buf_state b) -> (forall k, b_storage b !! k <> Some 0) -> account_order (b_accounts b) accs -> slot_order (b_storage b) storage ->
    exists root, buf_root keccak accs storage = Some root /\ is_state_root keccak (buf_state b) root.
  Proof.
    intros R C Z (_ & A) O. assert (A' : forall a acc, In (a, acc) (has_value accs) <-> accounts (buf_state b) a = Some acc).
    { intros a acc. rewrite has_value_in, A. cbn [accounts buf_state]. destruct (b_accounts b !! a) as [x|]; cbn [default from_option id]; [|split; discriminate]. split; [intros E; now apply (inj Some) in E|intros ->; reflexivity]. }
    destruct (accounts_ok keccak Hk (buf_state b) R C storage (order_slots _ _ O Z) (has_value accs) A') as (o & Ho & E). exists (root_of keccak o). split; [|exists o; auto]. unfold buf_root. destruct accs; [|exact E].
    change (Some kEmptyRoot) with (Some (root_of keccak None)). do 2 f_equal. apply (trie_unique (state_content keccak (buf_state b))); [|exact Ho]. intros k v (a & acc & r & _ & Ea & _). apply A' in Ea. destruct Ea.
  Qed.
  (** A slot that was set to zero is in the trie, with the RLP of the empty string. *)
  Lemma zero_slot b storage a i l : slot_order (b_storage b) storage -> b_storage b !! (a, i, l) = Some 0 -> (forall l v, b_storage b !! (a, i, l) = Some v -> l < 2 ^ 256 /\ v < 2 ^ 256) ->
    (forall l l' v v', b_storage b !! (a, i, l) = Some v -> b_storage b !! (a, i, l') = Some v' -> keccak (be_fixed 32 l) = keccak (be_fixed 32 l') -> l = l') ->
    exists t, account_storage_root keccak (storage a i) = Some (trie_root keccak t) /\ canonical t /\ get t (nibbles (keccak (be_fixed 32 l))) = Some [0x80]
    /\ forall o, is_trie (storage_content keccak (buf_state b) a i) o -> o <> Some t.
  Proof.
    intros O E V Inj. destruct (O a i) as (Nd & I). destruct (slots_root keccak Hk (storage a i) Nd) as (o & Ho & Er).
    - intros k v J. apply I in J. now apply (V k v).
    - intros k v k' v' J J'. apply I in J, J'. now apply (Inj k k' v v').
    - destruct o as [t|]; [|exfalso; apply (Ho (keccak (be_fixed 32 l)) (RLP (Num 0))); exists l, 0; split; [now apply I|auto]]. destruct Ho as (Ct & Gt). exists t. split; [exact Er|]. split; [exact Ct|].
      assert (G : get t (nibbles (keccak (be_fixed 32 l))) = Some [0x80]) by (apply Gt; exists (keccak (be_fixed 32 l)); split; [reflexivity|]; exists l, 0; split; [now apply I|auto]). split; [exact G|].
      intros o Ho ->. destruct Ho as (_ & Go). apply Go in G as (k & _ & l' & Hl' & Z & -> & Ev). apply Z. cbn [slots buf_state] in *. change [0x80] with (RLP (Num 0)) in Ev. 
      destruct (b_storage b !! (a, i, l')) as [v|] eqn:El; [|reflexivity]. cbn [default from_option id] in *. destruct (V l' v El) as (_ & Hv). destruct (word_small v Hv) as (_ & Hb). destruct (N.eq_dec v 0) as [ -> |Nv]; [reflexivity|]. exfalso.
      cbn [Num RLP] in Ev. change (BE 0) with (@nil N) in Ev. pose proof (f_equal (@length N) Ev) as Lv. unfold rlp_str in Ev, Lv. destruct (BE v) as [|x [|y r]] eqn:Eb; [apply Hb; [lia|reflexivity]| |].
      + pose proof (BE_wf v) as W. rewrite Eb in W. destruct (x <? 128) eqn:Hx; [|cbn in Lv; discriminate]. cbn in Ev. injection Ev as Ev. apply N.ltb_lt in Hx. lia.
      + change (length (hdr 128 183 (blen []) ++ [])) with 1%nat in Lv. rewrite app_length in Lv. cbn [length] in Lv. lia.
  Qed.
End Root.
