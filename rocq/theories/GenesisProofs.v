(** The genesis database: the buffer, the header and the total difficulty. *)
From stdpp Require Import gmap.
From Verif Require Import Base BaseFacts RlpSpec RlpModel RlpProofs TxSpec TypesModel TypesSpec UtilModel UtilProofs TrieModel TrieProofs TrieLemmas BlockModel BlockSpec BlockProofs CodecLemmas ChainModel DbTable DbModel DbSpec DbProofs DbCases
  BufferModel BufferSpec BufferCases StateRootSpec StateRootProofs StateRootProofs2 MemRootSpec MemRootModel MemRootProofs MemRootLemmas GenesisSpec GenesisModel.

(** ** The buffer *)
Definition genesis_account (v : N) : account := mkAccount 0 v kEmptyHash 0.
Lemma balance_in l a v : List.NoDup (map fst l) -> balance_of l a = Some v <-> In (a, v) l.
Proof.
  induction l as [|[b w] l IH]; intros Nd; [split; [discriminate|intros []]|]. cbn [map fst] in Nd. apply List.NoDup_cons_iff in Nd as (Ni & Nd). cbn [balance_of In]. destruct (N.eqb_spec b a) as [ -> |Ne].
  - split; [intros E; apply (inj Some) in E; subst; now left|]. intros [E|I]; [apply pair_equal_spec in E as (_ & -> ); reflexivity|]. destruct Ni. apply in_map_iff. exists (a, v). auto.
  - rewrite (IH Nd). split; [now right|]. intros [E|I]; [apply pair_equal_spec in E as (E & _); congruence|exact I].
Qed.
Lemma step_changes b a v : b_block b = 0 -> let b' := update_account b a None (Some (genesis_account v)) in
  b_block b' = 0 /\ b_accounts b' = <[a := Some (genesis_account v)]> (b_accounts b) /\ b_storage b' = b_storage b /\ b_prefix_code b' = b_prefix_code b
  /\ b_acc_changes b' !! 0 = Some (<[a := []]> (default ∅ (b_acc_changes b !! 0))).
Proof. intros E. cbn [update_account opt_account_eqb andb negb b_block b_accounts b_storage b_prefix_code b_acc_changes]. rewrite E. rewrite lookup_insert. auto 8. Qed.
Lemma allocate_run l : allocate l = buf_run buf_empty (map (fun e => OAccount (fst e) None (Some (genesis_account (snd e)))) l).
Proof. unfold allocate, buf_run. generalize buf_empty. induction l as [|e l IH]; intros b; [reflexivity|]. cbn [fold_left map]. apply IH. Qed.
Lemma allocate_snoc l e : allocate (l ++ [e]) = update_account (allocate l) (fst e) None (Some (genesis_account (snd e))).
Proof. unfold allocate. now rewrite fold_left_app. Qed.
Lemma allocated l : b_block (allocate l) = 0 /\ b_storage (allocate l) = ∅ /\ b_prefix_code (allocate l) = ∅
  /\ (forall a, b_accounts (allocate l) !! a <> None -> In a (map fst l))
  /\ (List.NoDup (map fst l) -> forall a v, In (a, v) l -> b_accounts (allocate l) !! a = Some (Some (genesis_account v)))
  /\ match l with [] => b_acc_changes (allocate l) !! 0 = None | _ => exists c, b_acc_changes (allocate l) !! 0 = Some c /\ dom c = (list_to_set (map fst l) : gset N) end.
Proof.
  induction l as [|[a v] l IH] using rev_ind.
  - split; [reflexivity|]. split; [reflexivity|]. split; [reflexivity|]. split; [intros a H; now destruct H|]. split; [intros _ a v []|reflexivity].
  - destruct IH as (B & S0 & P & A & A2 & C). rewrite allocate_snoc. cbn [fst snd]. destruct (step_changes (allocate l) a v B) as (B' & A' & S' & P' & C').
    split; [exact B'|]. split; [now rewrite S'|]. split; [now rewrite P'|]. split; [|split].
    + intros x. rewrite A', map_app. intros H. apply in_or_app. destruct (N.eq_dec x a) as [ -> |Ne]; [right; now left|]. left. apply A. now rewrite lookup_insert_ne in H by congruence.
    + rewrite map_app. intros Nd x w I. rewrite A'. assert (Nd2 : List.NoDup (map fst l) /\ ~ In a (map fst l)). { apply NoDup_remove in Nd. now rewrite app_nil_r in Nd. } destruct Nd2 as (Nd2 & Ni).
      apply in_app_iff in I as [I|[E|[]]].
      * rewrite lookup_insert_ne; [now apply A2|]. intros ->. apply Ni. apply in_map_iff. exists (x, w). auto.
      * apply pair_equal_spec in E as ( -> & -> ). apply lookup_insert.
    + assert (D : dom (<[a := []]> (default ∅ (b_acc_changes (allocate l) !! 0))) = (list_to_set (map fst (l ++ [(a, v)])) : gset N)).
      { rewrite dom_insert_L. rewrite map_app, list_to_set_app_L. cbn [map fst list_to_set]. destruct l as [|y l].
        - rewrite C. cbn [default]. unfold id. rewrite dom_empty_L. set_solver.
        - destruct C as (c & -> & E). cbn [default from_option]. unfold id. rewrite E. set_solver. }
      destruct (l ++ [(a, v)]) as [|y l0] eqn:E; [destruct l; discriminate|]. eexists. split; [exact C'|]. exact D.
Qed.
Lemma set_size_le (l : list N) : (size (list_to_set l : gset N) <= length l)%nat.
Proof.
  induction l as [|a l IH]; [rewrite list_to_set_nil, size_empty; lia|]. rewrite list_to_set_cons. cbn [length].
  pose proof (size_union_alt {[a]} (list_to_set l : gset N)) as U. rewrite U, size_singleton. assert (L : (size ((list_to_set l : gset N) ∖ {[a]}) <= size (list_to_set l : gset N))%nat) by (apply subseteq_size; set_solver). lia.
Qed.
Lemma set_size_nodup (l : list N) : size (list_to_set l : gset N) = length l <-> List.NoDup l.
Proof.
  split.
  - induction l as [|a l IH]; [constructor|]. rewrite list_to_set_cons. cbn [length]. intros E. destruct (in_dec N.eq_dec a l) as [I|Ni].
    + exfalso. assert (X : ({[a]} ∪ list_to_set l : gset N) = list_to_set l) by (apply elem_of_list_In in I; set_solver). rewrite X in E. pose proof (set_size_le l). lia.
    + constructor; [exact Ni|]. apply IH. rewrite size_union, size_singleton in E; [lia|]. rewrite <- elem_of_list_In in Ni. set_solver.
  - intros Nd. apply size_list_to_set. now apply NoDup_ListNoDup.
Qed.
Lemma changes_size l c : b_acc_changes (allocate l) !! 0 = Some c -> Nat.eqb (size c) (length l) = true <-> List.NoDup (map fst l).
Proof.
  intros E. destruct (allocated l) as (_ & _ & _ & _ & _ & C). destruct l as [|e l]; [congruence|]. destruct C as (c' & E' & D). assert (c' = c) as -> by congruence.
  rewrite <- set_size_nodup, <- D, size_dom, map_length. apply Nat.eqb_eq.
Qed.
Lemma buffer_accounts g : genesis_ok g -> forall a, default None (b_accounts (allocate (allocations g)) !! a) = accounts (genesis_state g) a.
Proof.
  intros (Nd & _) a. destruct (allocated (allocations g)) as (_ & _ & _ & A & A2 & _). cbn [accounts genesis_state]. destruct (balance_of (allocations g) a) as [v|] eqn:E.
  - apply (balance_in _ _ _ Nd) in E. now rewrite (A2 Nd a v E).
  - destruct (b_accounts _ !! a) as [x|] eqn:F; [|reflexivity]. exfalso. assert (I : In a (map fst (allocations g))) by (apply A; congruence). apply in_map_iff in I as ([b v] & <- & I). apply (balance_in _ _ _ Nd) in I. cbn [fst] in E. congruence.
Qed.

(** ** The state root *)
Lemma content_ext keccak s s' k v : (forall a, accounts s a = accounts s' a) -> (forall a i l, slots s a i l = slots s' a i l) -> state_content keccak s k v -> state_content keccak s' k v.
Proof.
  intros EA ES (a & acc & r & Ha & Ea & (o & Ho & Er) & Ek & Ev). exists a, acc, r. rewrite <- EA. repeat (split; [assumption|]). split; [|auto]. exists o. split; [|exact Er]. revert Ho. apply trie_ext. clear k v Ek Ev. intros k v. unfold storage_content.
  split; intros (l & H); exists l; [rewrite <- ES|rewrite ES]; exact H.
Qed.
Lemma empty_storage b : b_storage b = ∅ -> slot_order (b_storage b) (fun _ _ => []).
Proof. intros ->. intros a i. split; [constructor|]. intros l v. rewrite lookup_empty. split; [intros []|discriminate]. Qed.
Lemma account_wf v : v < 2 ^ 256 -> wf_account (genesis_account v).
Proof. intros H. split; [reflexivity|]. split; [exact H|]. split; [|reflexivity]. split; [reflexivity|]. apply be_fixed_wf. Qed.
Lemma genesis_root keccak visit g b : hash_32 keccak -> (forall m, account_order m (visit m)) -> genesis_ok g -> no_hash_collision keccak (genesis_state g) -> b = allocate (allocations g) ->
  exists root, buf_root keccak (visit (b_accounts b)) (fun _ _ => []) = Some root /\ is_state_root keccak (genesis_state g) root.
Proof.
  intros Hk Hv G (C1 & C2) ->. set (b := allocate (allocations g)). pose proof (buffer_accounts g G) as A. fold b in A. destruct (allocated (allocations g)) as (_ & S0 & _). fold b in S0.
  assert (R : in_range (buf_state b)).
  { intros a acc E. cbn [accounts buf_state] in E. rewrite A in E. cbn [accounts genesis_state] in E. destruct (balance_of _ a) as [v|] eqn:F; [|discriminate]. apply (inj Some) in E. subst acc. apply (balance_in _ _ _ (proj1 G)) in F. destruct (proj1 (proj2 G) _ _ F) as (Ha & Hb).
    split; [exact Ha|]. split; [now apply account_wf|]. intros l H. cbn [slots buf_state] in H. rewrite S0, lookup_empty in H. now destruct H. }
  destruct (buffer_root keccak Hk b (visit (b_accounts b)) (fun _ _ => [])) as (root & E & Ro); [exact R| | |apply Hv|now apply empty_storage|].
  - split; [intros a a' H H'; apply C1; rewrite <- A; assumption|]. intros a acc l l' _ H. cbn [slots buf_state] in H. rewrite S0, lookup_empty in H. now destruct H.
  - intros k. rewrite S0, lookup_empty. discriminate.
  - exists root. split; [exact E|]. destruct Ro as (o & Ho & Er). exists o. split; [|exact Er]. revert Ho. apply trie_ext. intros k v. assert (ES : forall a i l, slots (buf_state b) a i l = slots (genesis_state g) a i l) by (intros; cbn [slots buf_state genesis_state]; now rewrite S0, lookup_empty).
    split; apply content_ext; intros; [apply A|apply ES|symmetry; apply A|symmetry; apply ES].
Qed.

(** ** The header *)
Lemma strs_len keccak (Hk : hash_32 keccak) m l : m < 2 ^ 64 -> Forall (fun s => blen s <= m) l -> blen (concat (map RLP (map Str l))) <= (m + 9) * N.of_nat (length l).
Proof.
  intros Hm. induction 1 as [|s l Hs _ IH]; [cbn [map concat length]; rewrite blen_nil; lia|]. cbn [map concat length]. rewrite blen_app. pose proof (rlp_str_len keccak (fun b => proj1 (Hk b)) s ltac:(lia)). change (RLP (Str s)) with (rlp_str s). lia.
Qed.
Lemma word_len n : n < 2 ^ 256 -> blen (BE n) <= 2 ^ 33.
Proof. intros H. rewrite BE_blen. pose proof (byte_len_bound n 32 H). eapply N.le_trans; [eassumption|discriminate]. Qed.
Lemma wf_zeros n : wf_bytes (zeros n).
Proof. unfold wf_bytes, zeros. induction n; cbn [repeat]; constructor; [reflexivity|assumption]. Qed.
Lemma header_ok keccak (Hk : hash_32 keccak) g root : genesis_ok g -> hash32 root -> wf_header (genesis_header g root) /\ small_item (header_item (genesis_header g root)).
Proof.
  intros (_ & _ & We & Le & Mx & D & GL & T & No) (Lr & Wr).
  assert (M : blen (hd_mix_hash (genesis_header g root)) = 32 /\ wf_bytes (hd_mix_hash (genesis_header g root))) by (cbn [hd_mix_hash genesis_header]; destruct (g_mix g) as [h|]; [destruct Mx as (Ml & Mw); split; [unfold blen; now rewrite Ml|exact Mw]|split; [reflexivity|apply wf_zeros]]).
  assert (Nn : blen (hd_nonce (genesis_header g root)) = 8 /\ wf_bytes (hd_nonce (genesis_header g root))).
  { cbn [hd_nonce genesis_header]. unfold le_fixed. split; [unfold blen; now rewrite rev_length, be_fixed_length|]. unfold wf_bytes. apply Forall_rev. apply be_fixed_wf. }
  split.
  - unfold wf_header. split; [split; [reflexivity|apply wf_zeros]|]. split; [split; [reflexivity|apply be_fixed_wf]|]. split; [split; [reflexivity|apply wf_zeros]|]. split; [split; assumption|]. split; [split; [reflexivity|apply be_fixed_wf]|]. split; [split; [reflexivity|apply be_fixed_wf]|].
    split; [split; [reflexivity|apply wf_zeros]|]. split; [exact D|]. split; [reflexivity|]. split; [exact GL|]. split; [reflexivity|]. split; [exact T|]. split; [exact We|]. split; [exact M|]. split; [exact Nn|]. exact I.
  - set (h := genesis_header g root) in *. set (l := [hd_parent_hash h; hd_ommers_hash h; hd_beneficiary h; hd_state_root h; hd_transactions_root h; hd_receipts_root h; hd_logs_bloom h; BE (hd_difficulty h); BE (hd_number h); BE (hd_gas_limit h); BE (hd_gas_used h); BE (hd_timestamp h); hd_extra_data h; hd_mix_hash h; hd_nonce h]).
    assert (B : blen (concat (map RLP (map Str l))) <= (2 ^ 33 + 9) * 15).
    { apply (strs_len keccak Hk (2 ^ 33) l); [reflexivity|]. assert (X : forall n, n < 2 ^ 64 -> n < 2 ^ 256) by (intros n H; eapply N.lt_trans; [exact H|reflexivity]). assert (Y : forall s, blen s <= 256 -> blen s <= 2 ^ 33) by (intros s H; eapply N.le_trans; [exact H|discriminate]).
      unfold l. repeat constructor; try (apply word_len; first [exact D|apply X; assumption|reflexivity]); try (apply Y; discriminate).
      - apply Y. change (hd_state_root h) with root. rewrite Lr. discriminate.
      - change (hd_extra_data h) with (g_extra g). eapply N.le_trans; [apply N.lt_le_incl; exact Le|discriminate].
      - apply Y. rewrite (proj1 M). discriminate. }
    change (header_item h) with (Lst (map Str l)). unfold small_item. cbn [RLP]. unfold rlp_lst. rewrite blen_app. set (pl := concat (map RLP (map Str l))) in *. clearbody pl l h.
    assert (Hp : blen pl < 2 ^ 64) by (eapply N.le_lt_trans; [exact B|reflexivity]).
    assert (Q : blen (hdr 192 247 (blen pl)) <= 9). { unfold hdr. destruct (_ <? _); [unfold blen; cbn [length]; lia|]. rewrite blen_cons, BE_blen. pose proof (byte_len_u64 (blen pl) Hp). lia. }
    eapply N.le_lt_trans; [apply N.add_le_mono; [exact Q|exact B]|reflexivity].
Qed.
