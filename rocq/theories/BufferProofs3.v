(** Proofs about db::Buffer: after write_to_db the database answers as the buffer did. *)
From stdpp Require Import gmap sorting.
From Verif Require Import Base BaseFacts RlpModel TypesModel TypesSpec TypesProofs UtilModel UtilProofs DbTable DbModel DbSpec DbProofs BufferModel BufferSpec BufferProofs BufferProofs2.

Lemma lookup_dup t k v : dup_ordered t -> (forall x y, In (k, x) t -> In (k, y) t -> x = y) -> In (k, v) t -> lookup t k = Some v.
Proof.
  intros H U I. unfold lookup. destruct (find_first t k H) as [(E & N)|(pre & w & r & E & Ef & _)]; [now apply N in I|]. rewrite Ef. cbn. f_equal. apply U; [|exact I]. rewrite E. apply in_or_app. right. now left.
Qed.
Lemma lookup_dup_none t k : dup_ordered t -> (forall v, ~ In (k, v) t) -> lookup t k = None.
Proof.
  intros H N. unfold lookup. destruct (find_first t k H) as [(E & _)|(pre & w & r & E & Ef & _)]; [now rewrite E|]. exfalso. apply (N w). rewrite E. apply in_or_app. right. now left.
Qed.
Lemma lookup_dup_some t k v : dup_ordered t -> lookup t k = Some v -> In (k, v) t.
Proof.
  intros H. unfold lookup. destruct (find_first t k H) as [(E & _)|(pre & w & r & E & Ef & _)]; [now rewrite E|]. rewrite Ef. cbn. intros X. injection X as <-. rewrite E. apply in_or_app. right. now left.
Qed.

(** ** Tables with one value per key *)
Lemma write_map_spec {K} `{Countable K} {V} (key : K -> bytes) (val : V -> bytes) (m : gmap K V) (P : K -> Prop) t :
  (forall x y, P x -> P y -> key x = key y -> x = y) -> (forall k v, m !! k = Some v -> P k) -> ordered t ->
  ordered (write_map key val m t)
  /\ (forall k, P k -> lookup (write_map key val m t) (key k) = match m !! k with Some v => Some (val v) | None => lookup t (key k) end)
  /\ (forall b, (forall k, is_Some (m !! k) -> key k <> b) -> lookup (write_map key val m t) b = lookup t b).
Proof.
  intros Inj Hm Ho. unfold write_map.
  assert (G : forall l t, ordered t -> base.NoDup l.*1 -> (forall k v, In (k, v) l -> P k) ->
     ordered (fold_left (fun t kv => upsert t (key kv.1) (val kv.2)) l t)
     /\ (forall k v, In (k, v) l -> lookup (fold_left (fun t kv => upsert t (key kv.1) (val kv.2)) l t) (key k) = Some (val v))
     /\ (forall b, (forall k v, In (k, v) l -> key k <> b) -> lookup (fold_left (fun t kv => upsert t (key kv.1) (val kv.2)) l t) b = lookup t b)).
  { clear - Inj. induction l as [|[k0 v0] l IH]; intros t Ho Nd Hp; [split; [exact Ho|]; split; [intros ? ? []|reflexivity]|]. cbn [fold_left fst snd]. cbn in Nd. apply list.NoDup_cons in Nd as (N0 & Nd).
    destruct (IH (upsert t (key k0) (val v0)) (upsert_ordered t _ _ Ho) Nd (fun k v I => Hp k v (or_intror I))) as (A1 & A2 & A3). split; [exact A1|]. split.
    - intros k v [E|I]; [|now apply A2]. assert (k0 = k) by congruence. assert (v0 = v) by congruence. subst k0 v0. rewrite A3; [rewrite lookup_upsert by exact Ho; now rewrite eqb_refl|].
      intros k' v' I E'. assert (k' = k) by (apply Inj; [eapply Hp; right; exact I|eapply Hp; left; reflexivity|exact E']). subst k'. apply N0. apply elem_of_list_fmap. exists (k, v'). split; [reflexivity|]. now apply elem_of_list_In.
    - intros b Nb. rewrite A3; [|intros k v I; apply (Nb k v); now right]. rewrite lookup_upsert by exact Ho. destruct (eqb_spec b (key k0)) as [ -> |]; [|reflexivity]. exfalso. apply (Nb k0 v0); [now left|reflexivity]. }
  destruct (G (map_to_list m) t Ho (NoDup_fst_map_to_list m)) as (A1 & A2 & A3).
  { intros k v I. apply elem_of_list_In, elem_of_map_to_list in I. now apply Hm in I. }
  split; [exact A1|]. split.
  - intros k Pk. destruct (m !! k) as [v|] eqn:E; [apply A2; now apply elem_of_list_In, elem_of_map_to_list|]. apply A3. intros k' v' I E'. apply elem_of_list_In, elem_of_map_to_list in I. assert (k' = k) by (apply Inj; [now apply Hm in I|exact Pk|exact E']). congruence.
  - intros b Nb. apply A3. intros k v I. apply elem_of_list_In, elem_of_map_to_list in I. apply Nb. eauto.
Qed.

(** ** The tables after a write-out *)
Ltac tables := unfold buf_write_to_db; rewrite ?set_table_other by discriminate; rewrite ?set_table_same; rewrite ?set_table_other by discriminate.
Lemma out_state b d : buf_write_to_db b d kPlainState = write_to_state_table b (d kPlainState).
Proof. now tables. Qed.
Lemma out_inc b d : buf_write_to_db b d kIncarnationMap = write_map addr (be_fixed 8) (b_incarnations b) (d kIncarnationMap).
Proof. now tables. Qed.
Lemma out_code b d : buf_write_to_db b d kCode = write_map (fun h => h) (fun c => c) (b_code b) (d kCode).
Proof. now tables. Qed.
Lemma out_prefix b d : buf_write_to_db b d kPlainContractCode = write_map (fun p => storage_prefix (addr p.1) p.2) (fun h => h) (b_prefix_code b) (d kPlainContractCode).
Proof. now tables. Qed.
Lemma out_acc b d : buf_write_to_db b d kPlainAccountChangeSet = write_acc_changes b (d kPlainAccountChangeSet).
Proof. now tables. Qed.
Lemma out_st b d : buf_write_to_db b d kPlainStorageChangeSet = write_st_changes b (d kPlainStorageChangeSet).
Proof. now tables. Qed.

Lemma encode_ne x omit : encode_for_storage x omit <> [].
Proof. unfold encode_for_storage. intros E. apply (f_equal (@length _)) in E. rewrite ?app_length in E. cbn in E. discriminate. Qed.

Section Out.
  Variable bm_read : bytes -> bitmap.
  Lemma out_accounts b d a : wf_db d -> wf_buffer b -> one_per_address (d kPlainState) -> codes_consistent b d -> a < 2 ^ 160 ->
    read_account bm_read (buf_write_to_db b d) a None = buf_read_account bm_read d None b a.
  Proof using.
    intros W Wb U (C1 & C2) Ha. pose proof (wf_multi d kPlainState W eq_refl) as Hs. destruct (state_table_accounts b (d kPlainState) Wb Hs U) as (S1 & S2 & S3).
    unfold buf_read_account. unfold read_account at 1. rewrite out_state. destruct (b_accounts b !! a) as [[x|]|] eqn:Ea.
    - rewrite (lookup_dup _ (addr a) (encode_for_storage x false) S1 (S2 a)); [|apply S3; [exact Ha|]; unfold acc_target; now rewrite Ea].
      destruct (encode_for_storage x false) as [|e0 er] eqn:Ee; [now apply encode_ne in Ee|]. rewrite <- Ee. destruct (wb_accounts b Wb _ _ Ea) as (_ & Wx). rewrite decode_encode_account by exact Wx. cbn [err_handler obind].
      destruct (N.ltb_spec 0 (a_incarnation x)) as [Hi|Hi]; cbn [andb]; [|reflexivity]. destruct (eqb_spec (a_code_hash x) kEmptyHash) as [Eh|Nh]; [|reflexivity].
      destruct (lookup (buf_write_to_db b d kPlainContractCode) (storage_prefix (addr a) (a_incarnation x))) as [h|] eqn:El; [|reflexivity].
      rewrite (C1 a x h Ea Eh Hi El). destruct (Nat.eqb _ _); [|reflexivity]. do 2 f_equal. destruct x; cbn in *. now rewrite Eh.
    - rewrite lookup_dup_none; [reflexivity|exact S1|]. intros v I. apply S3 in I; [|exact Ha]. unfold acc_target in I. now rewrite Ea in I.
    - assert (El : lookup (write_to_state_table b (d kPlainState)) (addr a) = lookup (d kPlainState) (addr a)).
      { destruct (lookup (d kPlainState) (addr a)) as [v|] eqn:El.
        - apply lookup_dup; [exact S1|apply S2|]. apply S3; [exact Ha|]. unfold acc_target. rewrite Ea. now apply lookup_dup_some.
        - apply lookup_dup_none; [exact S1|]. intros v I. apply S3 in I; [|exact Ha]. unfold acc_target in I. rewrite Ea in I. rewrite (lookup_dup _ (addr a) v Hs (U a) I) in El. discriminate. }
      rewrite El. unfold read_account. destruct (lookup (d kPlainState) (addr a)) as [[|e0 er]|] eqn:E0; [reflexivity| |reflexivity]. destruct (err_handler (decode_account (e0 :: er))) as [acc| |] eqn:Ed; cbn [obind]; try reflexivity.
      destruct ((0 <? a_incarnation acc) && bytes_eqb (a_code_hash acc) kEmptyHash) eqn:Ec; [|reflexivity]. rewrite out_prefix.
      assert (Nk : lookup (write_map (fun p => storage_prefix (addr p.1) p.2) (fun h => h) (b_prefix_code b) (d kPlainContractCode)) (storage_prefix (addr a) (a_incarnation acc)) = lookup (d kPlainContractCode) (storage_prefix (addr a) (a_incarnation acc))).
      { destruct (write_map_spec (fun p => storage_prefix (addr p.1) p.2) (fun h : bytes => h) (b_prefix_code b) (fun p => p.1 < 2 ^ 160 /\ p.2 < 2 ^ 64) (d kPlainContractCode)) as (_ & _ & A3).
        - intros [x i] [y j] (X1 & X2) (Y1 & Y2) E. cbn [fst snd] in *. apply prefix_inj in E as (-> & ->); auto.
        - intros [x i] v E. now apply (wb_prefix b Wb) in E.
        - now apply wf_single.
        - apply A3. intros [x i] (h & E) X. cbn [fst snd] in X. destruct (wb_prefix b Wb _ _ _ E) as (X1 & _). unfold storage_prefix in X. apply app_parts in X as (X & _); [|now rewrite !addr_len]. apply addr_inj in X; [|assumption..]. subst x. apply C2 in E as (? & E). congruence. }
      now rewrite Nk.
  Qed.
  Lemma out_codes b d h : wf_db d -> buf_read_code (buf_write_to_db b d) buf_empty h = buf_read_code d b h.
  Proof using.
    intros W. unfold buf_read_code, read_code. cbn [b_code buf_empty]. rewrite lookup_empty, out_code.
    destruct (write_map_spec (fun h : bytes => h) (fun c : bytes => c) (b_code b) (fun _ => True) (d kCode)) as (_ & A2 & _); [auto..|now apply wf_single|]. rewrite (A2 h I). now destruct (b_code b !! h).
  Qed.
  Lemma out_incarnations b d a : wf_db d -> wf_buffer b -> a < 2 ^ 160 ->
    buf_previous_incarnation (buf_write_to_db b d) None buf_empty a = buf_previous_incarnation d None b a.
  Proof using.
    intros W Wb Ha. unfold buf_previous_incarnation, read_previous_incarnation. cbn [b_incarnations buf_empty]. rewrite lookup_empty, out_inc.
    destruct (write_map_spec addr (be_fixed 8) (b_incarnations b) (fun a => a < 2 ^ 160) (d kIncarnationMap)) as (_ & A2 & _); [intros; now apply addr_inj|intros k v E; now apply (wb_inc b Wb) in E|now apply wf_single|].
    rewrite (A2 a Ha). destruct (b_incarnations b !! a) as [i|] eqn:E; [|reflexivity]. rewrite be_fixed_length. cbn [Nat.ltb Nat.leb]. rewrite firstn_all2 by now rewrite be_fixed_length. destruct (wb_inc b Wb _ _ E) as (_ & Hi). cbn [obind default]. now rewrite be_to_N_be_fixed_small by exact Hi.
  Qed.

  (** Storage *)
  Lemma find_value_suffix_ext t t' k p : dup_ordered t -> dup_ordered t' -> (forall v, In (k, v) t' <-> In (k, v) t) -> find_value_suffix t' k p = find_value_suffix t k p.
  Proof using.
    intros H H' E. destruct (find_value_suffix t k p) as [s|] eqn:F.
    - apply find_value_suffix_spec in F as (F1 & F2); [|exact H]. apply find_value_suffix_spec; [exact H'|]. split; [now apply E|]. intros s' I. apply F2. now apply E.
    - destruct (find_value_suffix t' k p) as [s|] eqn:F'; [|reflexivity]. apply find_value_suffix_spec in F' as (F1 & F2); [|exact H']. exfalso.
      assert (find_value_suffix t k p = Some s); [|congruence]. apply find_value_suffix_spec; [exact H|]. split; [now apply E|]. intros s' I. apply F2. now apply E.
  Qed.
  Lemma write_state_sorted b t : dup_ordered t -> dup_ordered (write_to_state_table b t).
  Proof using. unfold write_to_state_table. generalize (addresses_of b). intros l. revert t. induction l as [|x l IH]; intros t H; [exact H|]. apply IH. now apply write_address_sorted. Qed.
  Lemma out_storage_untouched b d a i l : wf_db d -> wf_buffer b -> a < 2 ^ 160 -> i < 2 ^ 64 -> (forall l, b_storage b !! (a, i, l) = None) ->
    read_storage bm_read (buf_write_to_db b d) a i l None = buf_read_storage bm_read d None b a i l.
  Proof using.
    intros W Wb Ha Hi N. unfold buf_read_storage. rewrite (N l). unfold read_storage. rewrite out_state. pose proof (wf_multi d kPlainState W eq_refl) as Hs.
    rewrite (find_value_suffix_ext (d kPlainState)); [reflexivity|exact Hs|now apply write_state_sorted|]. intros v. now apply state_table_untouched.
  Qed.
  Lemma find_value_suffix_none t k p : dup_ordered t -> (forall s, ~ In (k, p ++ s) t) -> find_value_suffix t k p = None.
  Proof using. intros H N. destruct (find_value_suffix t k p) as [s|] eqn:F; [|reflexivity]. apply find_value_suffix_spec in F as (F & _); [|exact H]. now apply N in F. Qed.
  Lemma zeroless_word v : v < 2 ^ 256 -> be_to_N (zeroless_view (word v)) = v /\ (32 <? length (zeroless_view (word v)))%nat = false.
  Proof using.
    intros Hv. split.
    - rewrite zeroless_value. unfold word. now apply be_to_N_be_fixed_small.
    - apply Nat.ltb_ge. destruct (zeroless_split (word v)) as (n & E & _). apply (f_equal (@length _)) in E. rewrite app_length, word_len in E. lia.
  Qed.
  Lemma out_storage_single b d a i l0 v l : wf_db d -> wf_buffer b -> b_storage b !! (a, i, l0) = Some v -> (forall l, l <> l0 -> b_storage b !! (a, i, l) = None) ->
    (forall x y, In (storage_prefix (addr a) i, x) (d kPlainState) -> In (storage_prefix (addr a) i, y) (d kPlainState) -> x = y) ->
    (forall x, In (storage_prefix (addr a) i, x) (d kPlainState) -> exists s, x = word l0 ++ s) -> l < 2 ^ 256 ->
    read_storage bm_read (buf_write_to_db b d) a i l None = buf_read_storage bm_read d None b a i l.
  Proof using.
    intros W Wb E N U L Hl. pose proof (wf_multi d kPlainState W eq_refl) as Hs. destruct (wb_storage b Wb _ _ _ _ E) as (Ha & Hi & Hl0 & Hv).
    assert (S : forall w, In (storage_prefix (addr a) i, w) (write_to_state_table b (d kPlainState)) <-> v <> 0 /\ w = word l0 ++ zeroless_view (word v)).
    { intros w. unfold write_to_state_table. rewrite (state_fold_single b a i l0 v (storage_prefix (addr a) i) (addresses_of b) (d kPlainState) Wb Hs E eq_refl N); [|..|exact U].
      - rewrite bool_decide_true; [reflexivity|]. apply elem_of_list_In, addresses_in. right. exists i, l0. eauto.
      - intros x Hx. apply addresses_in in Hx as [(y & Ey)|(j & k & (v' & Ey))]; [now apply (wb_accounts b Wb) in Ey|now apply (wb_storage b Wb) in Ey]. }
    unfold read_storage at 1, buf_read_storage. rewrite out_state. destruct (N.eq_dec l l0) as [ -> |Nl].
    - rewrite E. destruct (N.eq_dec v 0) as [ -> |Nv].
      + rewrite find_value_suffix_none; [reflexivity|now apply write_state_sorted|]. intros s I. apply S in I as (I & _). congruence.
      + replace (find_value_suffix (write_to_state_table b (d kPlainState)) (storage_prefix (addr a) i) (word l0)) with (Some (zeroless_view (word v))).
        * destruct (zeroless_word v Hv) as (-> & ->). reflexivity.
        * symmetry. apply find_value_suffix_spec; [now apply write_state_sorted|]. split; [now apply S|]. intros s I. apply S in I as (_ & I). apply app_inv_head in I. auto.
    - rewrite (N l Nl). rewrite find_value_suffix_none; [|now apply write_state_sorted|].
      + unfold read_storage. rewrite find_value_suffix_none; [reflexivity|exact Hs|]. intros s I. apply L in I as (s' & I). apply app_parts in I as (I & _); [|now rewrite !word_len]. apply Nl. now apply word_inj.
      + intros s I. apply S in I as (_ & I). apply app_parts in I as (I & _); [|now rewrite !word_len]. apply Nl. now apply word_inj.
  Qed.
End Out.
