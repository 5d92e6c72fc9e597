(** Proofs about the C interface. *)
From stdpp Require Import gmap.
From Verif Require Import Base BaseFacts RlpSpec RlpModel RlpProofs TrieLemmas TypesModel TypesSpec UtilModel UtilProofs ChainModel ChainSpec StateModel MemBufModel StateRootSpec StateRootProofs MemRootSpec MemRootModel MemRootProofs MemRootLemmas WasmModel WasmSpec.

(** The calls, performed. *)
Definition perform (m : membuf) (c : call) : membuf :=
  match c with
  | SetAccount p acc => state_update_account m p acc
  | SetCode p acc code => state_update_code m p acc code
  | SetStorage p acc location value => state_update_storage m p acc location value
  end.
Definition performed (calls : list call) : membuf := fold_left perform calls new_state.

Lemma address_20 p : length p = 20%nat -> address_from_ptr p = be_to_N p.
Proof. intros H. unfold address_from_ptr, to_address. rewrite firstn_all2 by lia. rewrite to_fixed_long by lia. rewrite firstn_all2 by lia. reflexivity. Qed.
Lemma word_32 b : be_to_N (to_bytes32 b) = word b.
Proof.
  unfold to_bytes32, word. destruct (Nat.le_gt_cases (length b) 32) as [H|H].
  - rewrite to_fixed_short by exact H. rewrite be_to_N_zeros. now rewrite firstn_all2.
  - now rewrite to_fixed_long by lia.
Qed.
Lemma hash_ptr h : length h = 32%nat -> bytes32_from_ptr h = h.
Proof. intros H. unfold bytes32_from_ptr, to_bytes32. rewrite firstn_all2 by lia. rewrite to_fixed_long by lia. now rewrite firstn_all2 by lia. Qed.

Lemma last_snoc {A} (f : call -> option A) l c : last_of f (l ++ [c]) = match f c with Some x => Some x | None => last_of f l end.
Proof. induction l as [|d l IH]; cbn [last_of app]; [now destruct (f c)|]. rewrite IH. destruct (f c); [reflexivity|]. reflexivity. Qed.

Lemma performed_snoc l c : performed (l ++ [c]) = perform (performed l) c.
Proof. unfold performed. now rewrite fold_left_app. Qed.

Lemma accounts_said calls : Forall call_ok calls -> forall a, m_accounts (performed calls) !! a = default None (last_of (account_at a) calls).
Proof.
  induction calls as [|c calls IH] using rev_ind; intros F a; [apply lookup_empty|]. apply Forall_app in F as (F & Fc). apply Forall_cons_iff in Fc as (Fc & _). rewrite performed_snoc, last_snoc.
  specialize (IH F). destruct c as [p acc|p acc code|p acc l v]; cbn [perform account_at]; [|apply IH|apply IH].
  destruct Fc as (L & _ & _). unfold state_update_account, update_account. rewrite (address_20 p L).
  destruct (N.eqb_spec (be_to_N p) a) as [E|E]; destruct acc as [x|]; cbn [m_accounts default from_option id]; rewrite ?E.
  - now rewrite lookup_insert.
  - now rewrite lookup_delete.
  - rewrite lookup_insert_ne by exact E. apply IH.
  - rewrite lookup_delete_ne by exact E. apply IH.
Qed.
Lemma code_said_ok calls h : read_code (mem_reader (performed calls)) h = code_said calls h.
Proof.
  unfold code_said. cbn [read_code mem_reader]. induction calls as [|c calls IH] using rev_ind; [reflexivity|]. rewrite performed_snoc, last_snoc. destruct c as [p acc|p acc code|p acc l v]; cbn [perform code_at].
  - unfold state_update_account, update_account. destruct acc; exact IH.
  - unfold state_update_code, update_account_code. cbn [m_code]. pose proof (bytes_eqb_eq (a_code_hash acc) h) as B. destruct (bytes_eqb (a_code_hash acc) h).
    + assert (E : a_code_hash acc = h) by now apply B. rewrite E, lookup_insert. reflexivity.
    + rewrite lookup_insert_ne; [exact IH|]. intros E. apply B in E. discriminate.
  - exact IH.
Qed.
Lemma slots_said calls : Forall call_ok calls -> forall a i l, m_storage (performed calls) !! (a, i, l) = match last_of (slot_at a i l) calls with Some v => if v =? 0 then None else Some v | None => None end.
Proof.
  induction calls as [|c calls IH] using rev_ind; intros F a i l; [apply lookup_empty|]. apply Forall_app in F as (F & Fc). apply Forall_cons_iff in Fc as (Fc & _). rewrite performed_snoc, last_snoc.
  specialize (IH F). destruct c as [p acc|p acc code|p acc lo v]; cbn [perform slot_at]; [unfold state_update_account, update_account; destruct acc; apply IH|apply IH|].
  destruct Fc as (L & _). unfold state_update_storage, update_storage. cbn [m_storage]. rewrite (address_20 p L), !word_32. unfold put.
  destruct (N.eqb_spec (be_to_N p) a) as [E1|E1]; [destruct (N.eqb_spec (a_incarnation acc) i) as [E2|E2]; [destruct (N.eqb_spec (word lo) l) as [E3|E3]|]|]; cbn [andb].
  1: { rewrite E1, E2, E3. destruct (N.eqb_spec (word v) 0); [apply lookup_delete|apply lookup_insert]. }
  all: destruct (word v =? 0); [rewrite lookup_delete_ne by congruence|rewrite lookup_insert_ne by congruence]; apply IH.
Qed.
Lemma slot_value calls : Forall call_ok calls -> forall a i l, default 0 (m_storage (performed calls) !! (a, i, l)) = slots (said calls) a i l.
Proof.
  intros F a i l. rewrite (slots_said calls F). cbn [slots said]. destruct (last_of (slot_at a i l) calls) as [v|]; [|reflexivity]. destruct (N.eqb_spec v 0) as [->|]; reflexivity.
Qed.
Lemma stored_nonzero calls : Forall call_ok calls -> forall k, m_storage (performed calls) !! k <> Some 0.
Proof.
  intros F [[a i] l]. rewrite (slots_said calls F). destruct (last_of _ _) as [v|]; [|discriminate]. destruct (N.eqb_spec v 0); congruence.
Qed.

(** Reading. *)
Lemma read_account_said calls p : Forall call_ok calls -> length p = 20%nat -> state_read_account_new (performed calls) p = accounts (said calls) (be_to_N p).
Proof. intros F L. unfold state_read_account_new. rewrite (address_20 p L). exact (accounts_said calls F (be_to_N p)). Qed.
Lemma read_code_said calls h : length h = 32%nat -> state_read_code_new (performed calls) h = code_said calls h.
Proof. intros L. unfold state_read_code_new. rewrite (hash_ptr h L). apply code_said_ok. Qed.
Lemma word_small b : wf_bytes b -> word b < 2 ^ 256.
Proof.
  intros W. unfold word. assert (Wf : wf_bytes (firstn 32 b)) by (unfold wf_bytes in *; rewrite <- (firstn_skipn 32 b) in W; apply Forall_app in W; apply W).
  pose proof (be_to_N_bound _ Wf) as B. eapply N.lt_le_trans; [exact B|]. change (2 ^ 256) with (256 ^ 32). apply N.pow_le_mono_r; [discriminate|]. unfold blen. rewrite firstn_length. lia.
Qed.
Lemma last_in {A} (f : call -> option A) l x : last_of f l = Some x -> exists c, In c l /\ f c = Some x.
Proof.
  induction l as [|c l IH]; [discriminate|]. cbn [last_of]. destruct (last_of f l) as [y|].
  - intros [= ->]. destruct (IH eq_refl) as (d & I & E). exists d. split; [now right|exact E].
  - intros E. exists c. split; [now left|exact E].
Qed.
Lemma said_slot calls : Forall call_ok calls -> forall a i l, slots (said calls) a i l <> 0 -> l < 2 ^ 256 /\ slots (said calls) a i l < 2 ^ 256.
Proof.
  intros F a i l. cbn [slots said]. destruct (last_of (slot_at a i l) calls) as [v|] eqn:E; cbn [default from_option id]; [|congruence]. intros _.
  apply last_in in E as (c & I & E). rewrite Forall_forall in F. specialize (F c I). destruct c as [p acc|p acc code|p acc lo va]; try discriminate. cbn [slot_at] in E. destruct F as (_ & _ & _ & W1 & W2).
  destruct (N.eqb_spec (be_to_N p) a); [|discriminate]. destruct (N.eqb_spec (a_incarnation acc) i); [|discriminate]. destruct (N.eqb_spec (word lo) l) as [<-|]; [|discriminate]. cbn [andb] in E. injection E as <-. split; now apply word_small.
Qed.
Lemma read_storage_said calls p acc location : Forall call_ok calls -> length p = 20%nat ->
  state_read_storage_new (performed calls) p acc location = BE (slots (said calls) (be_to_N p) (a_incarnation acc) (word location)).
Proof.
  intros F L. unfold state_read_storage_new. rewrite (address_20 p L), word_32. cbn [read_storage mem_reader]. rewrite (slot_value calls F). apply zeroless_BE.
  destruct (N.eq_dec (slots (said calls) (be_to_N p) (a_incarnation acc) (word location)) 0) as [->|E]; [reflexivity|]. now apply (said_slot calls F).
Qed.
Lemma said_range calls : Forall call_ok calls -> in_range (said calls).
Proof.
  intros F a acc E. cbn [accounts said] in E. destruct (last_of (account_at a) calls) as [x|] eqn:L; cbn [default from_option id] in E; [|discriminate]. subst x.
  apply last_in in L as (c & I & L). pose proof F as F'. rewrite Forall_forall in F'. specialize (F' c I). destruct c as [p x|p x code|p x lo va]; try discriminate. cbn [account_at] in L. destruct F' as (H1 & H2 & H3).
  destruct (N.eqb_spec (be_to_N p) a) as [<-|]; [|discriminate]. injection L as ->. split; [|split; [exact H3|]].
  - pose proof (be_to_N_bound p H2) as B. unfold blen in B. rewrite H1 in B. exact B.
  - intros l Z. now apply (said_slot calls F).
Qed.

(** Counting. *)
Lemma list_size {K A} `{Countable K} (m : gmap K A) l : lists l (fun k => is_Some (m !! k)) -> length l = size m.
Proof.
  intros (Nd & E). unfold size, map_size. rewrite <- (fmap_length fst (map_to_list m)). apply Permutation_length. apply NoDup_Permutation; [exact Nd|apply NoDup_fst_map_to_list|].
  intros k. rewrite elem_of_list_In, E. split.
  - intros (x & L). apply elem_of_list_fmap. exists (k, x). split; [reflexivity|now apply elem_of_map_to_list].
  - intros I. apply elem_of_list_fmap in I as ([k' x] & -> & I). apply elem_of_map_to_list in I. now exists x.
Qed.
Lemma number_said calls l : Forall call_ok calls -> lists l (fun a => accounts (said calls) a <> None) -> state_number_of_accounts (performed calls) = length l.
Proof.
  intros F (Nd & E). symmetry. apply list_size. split; [exact Nd|]. intros a. rewrite E, (accounts_said calls F). cbn [accounts said]. destruct (default None _) as [x|]; split; intros H; try congruence; try now exists x. now destruct H.
Qed.
Lemma size_said calls p acc l : Forall call_ok calls -> length p = 20%nat -> lists l (fun x => slots (said calls) (be_to_N p) (a_incarnation acc) x <> 0) ->
  state_storage_size (performed calls) p acc = length l.
Proof.
  intros F L (Nd & E). unfold state_storage_size. rewrite (address_20 p L). rewrite <- (map_length (fun x => (be_to_N p, a_incarnation acc, x)) l). symmetry. apply list_size. split.
  - assert (Ij : Inj eq eq (fun x : N => (be_to_N p, a_incarnation acc, x))) by (intros x y Hxy; congruence). exact (NoDup_fmap_2 (fun x => (be_to_N p, a_incarnation acc, x)) l Nd).
  - intros [[a i] x]. rewrite in_map_iff. split.
    + intros (y & Ey & I). apply E in I. injection Ey as <- <- <-. rewrite <- (slot_value calls F) in I. destruct (m_storage (performed calls) !! _) as [v|] eqn:Lk; [|cbn in I; congruence]. exists v. apply map_filter_lookup_Some. split; [exact Lk|reflexivity].
    + intros (v & Lk). apply map_filter_lookup_Some in Lk as (Lk & Ek). cbn [fst] in Ek. injection Ek as -> ->. exists x. split; [reflexivity|]. apply E. rewrite <- (slot_value calls F), Lk. cbn. intros ->. now apply (stored_nonzero calls F _ Lk).
Qed.

(** The root. *)
Lemma root_ext keccak c c' r : (forall k v, c k v <-> c' k v) -> is_root keccak c r -> is_root keccak c' r.
Proof. intros E (o & H & ->). exists o. split; [now apply (trie_ext c)|reflexivity]. Qed.
Lemma state_root_ext keccak s s' r : (forall a, accounts s a = accounts s' a) -> (forall a i l, slots s a i l = slots s' a i l) -> is_state_root keccak s r -> is_state_root keccak s' r.
Proof.
  intros Ea Es. apply root_ext. assert (Sc : forall s s', (forall a i l, slots s a i l = slots s' a i l) -> forall a i k v, storage_content keccak s a i k v -> storage_content keccak s' a i k v).
  { intros t t' E a i k v (l & H1 & H2 & H3 & H4). exists l. rewrite <- E. auto. }
  intros k v. split; intros (a & acc & q & H1 & H2 & H3 & H4 & H5); exists a, acc, q; (split; [exact H1|]; split; [congruence|]; split; [|auto]);
    (eapply root_ext; [|exact H3]); intros k' v'; split; apply Sc; auto.
Qed.
Lemma root_said keccak calls accs storage : hash_32 keccak -> Forall call_ok calls -> no_hash_collision keccak (said calls) ->
  account_order (m_accounts (performed calls)) accs -> slot_order (m_storage (performed calls)) storage ->
  exists root, state_root_hash_new keccak accs storage = Some root /\ is_state_root keccak (said calls) root.
Proof.
  intros Hk F C A O. assert (Ea : forall a, accounts (mem_state (performed calls)) a = accounts (said calls) a) by apply (accounts_said calls F).
  assert (Es : forall a i l, slots (mem_state (performed calls)) a i l = slots (said calls) a i l) by apply (slot_value calls F).
  destruct (memory_root keccak Hk (performed calls) accs storage) as (root & E & R); [| |apply (stored_nonzero calls F)|exact A|exact O|exists root; split; [exact E|now apply (state_root_ext keccak (mem_state (performed calls)))]].
  - intros a acc E. rewrite Ea in E. destruct (said_range calls F a acc E) as (H1 & H2 & H3). split; [exact H1|]. split; [exact H2|]. intros l. rewrite Es. apply H3.
  - destruct C as (C1 & C2). split; [intros a b; rewrite !Ea; apply C1|]. intros a acc l l'. rewrite Ea, !Es. apply C2.
Qed.
