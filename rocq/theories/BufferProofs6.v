(** Proofs about db::Buffer, historical reads and bitmaps: final forms. *)
From stdpp Require Import gmap sorting.
From Verif Require Import Base BaseFacts RlpModel TypesModel TypesSpec TypesProofs UtilModel UtilProofs DbTable DbModel DbSpec DbProofs BufferModel BufferSpec BufferProofs BufferProofs2 BufferProofs3 BufferProofs4 BufferProofs5.

(** ** Change sets *)
Lemma not_begun n pre : forall b, b_acc_changes b !! n = None -> b_st_changes b !! n = None -> b_block b <> n -> (forall m, In (OBegin m) pre -> m <> n) ->
  b_acc_changes (buf_run b pre) !! n = None /\ b_st_changes (buf_run b pre) !! n = None.
Proof.
  induction pre as [|o pre IH]; intros b H1 H2 H3 N; [auto|]. unfold buf_run. cbn [fold_left]. assert (N' : forall m, In (OBegin m) pre -> m <> n) by (intros m I; apply N; now right). apply IH; [| | |exact N'].
  - destruct o as [m|a i c|a inc h code|a inc l i c]; cbn [buf_step]; [exact H1| |exact H1|].
    + unfold update_account. destruct (_ && _ && _); [exact H1|]. destruct (opt_account_eqb c i); cbn [b_acc_changes]; now rewrite lookup_insert_ne.
    + unfold update_storage. now destruct (c =? i).
  - destruct o as [m|a i c|a inc h code|a inc l i c]; cbn [buf_step]; [exact H2| |exact H2|].
    + unfold update_account. destruct (_ && _ && _); [exact H2|]. now destruct (opt_account_eqb c i).
    + unfold update_storage. destruct (c =? i); [exact H2|]. cbn [b_st_changes]. now rewrite lookup_insert_ne.
  - destruct o as [m|a i c|a inc h code|a inc l i c]; cbn [buf_step]; [cbn; apply N; now left| |exact H3|].
    + unfold update_account. destruct (_ && _ && _); [exact H3|]. now destruct (opt_account_eqb c i).
    + unfold update_storage. now destruct (c =? i).
Qed.
Lemma begun_first n pre : (forall m, In (OBegin m) pre -> m <> n) -> (pre = [] \/ exists m r, pre = OBegin m :: r) ->
  b_acc_changes (buf_run buf_empty pre) !! n = None /\ b_st_changes (buf_run buf_empty pre) !! n = None.
Proof.
  intros N [->|(m & r & ->)]; [split; apply lookup_empty|]. unfold buf_run. cbn [fold_left buf_step]. apply not_begun; [apply lookup_empty..|cbn; apply N; now left|intros x I; apply N; now right].
Qed.
Lemma run_app b x y : buf_run b (x ++ y) = buf_run (buf_run b x) y. Proof. apply fold_left_app. Qed.
Lemma out_wf_acc b d : wf_db d -> dup_ordered (buf_write_to_db b d kPlainAccountChangeSet) /\ dup_ordered (buf_write_to_db b d kPlainStorageChangeSet).
Proof. intros W. rewrite out_acc, out_st. split; [now apply acc_changes_in, wf_multi|now apply st_changes_in, wf_multi]. Qed.
(** The write-out keeps every table in order. *)
Lemma write_map_ordered {K} `{Countable K} {V} (key : K -> bytes) (val : V -> bytes) (m : gmap K V) t : ordered t -> ordered (write_map key val m t).
Proof. unfold write_map. generalize (map_to_list m). intros l. revert t. induction l as [|x l IH]; intros t Ho; [exact Ho|]. apply IH. now apply upsert_ordered. Qed.
Lemma out_wf b d : wf_db d -> wf_db (buf_write_to_db b d).
Proof.
  intros W. unfold buf_write_to_db. cbv zeta.
  assert (G : forall d t x, wf_db d -> (if multi t then dup_ordered x else ordered x) -> wf_db (set_table d t x)).
  { clear. intros d t x W X t'. destruct (tbl_eq_dec t' t) as [ -> |N]; [now rewrite set_table_same|rewrite set_table_other by exact N; apply W]. }
  repeat (apply G; [|cbn [multi]]); try exact W; rewrite ?set_table_other by discriminate.
  all: try (apply write_map_ordered; now apply wf_single).
  - now apply write_state_sorted, wf_multi.
  - now apply acc_changes_in, wf_multi.
  - now apply st_changes_in, wf_multi.
Qed.

Theorem change_sets pre n st ac d :
  Forall fits_op pre -> (forall m, In (OBegin m) pre -> m <> n) -> (pre = [] \/ exists m r, pre = OBegin m :: r) ->
  n < 2 ^ 64 -> Forall fits_op st -> Forall fits_op ac -> Forall slot_update st -> Forall account_update ac -> List.NoDup (updated_slots st) -> List.NoDup (updated_accounts ac) ->
  wf_db d -> (forall v, ~ In (be_fixed 8 n, v) (d kPlainAccountChangeSet)) -> (forall k v, ~ In (be_fixed 8 n ++ k, v) (d kPlainStorageChangeSet)) ->
  exists am sm,
    read_account_changes (buf_write_to_db (buf_run buf_empty (pre ++ OBegin n :: st ++ ac)) d) n = Done am
    /\ read_storage_changes (buf_write_to_db (buf_run buf_empty (pre ++ OBegin n :: st ++ ac)) d) n = Done sm
    /\ (forall a v, am !! a = Some v <-> exists i c, In (OAccount a i c) ac /\ (i <> c \/ c = None \/ exists j l x y, In (OStorage a j l x y) st /\ x <> y) /\ v = before_image i c)
    /\ (forall a j l v, sm !! (a, j, l) = Some v <-> exists x y, In (OStorage a j l x y) st /\ x <> y /\ v = zeroless_view (be_fixed 32 x)).
Proof.
  intros Fp Np Sp Hn Fs Fa Us Ua Ns Na W D1 D2. rewrite run_app. destruct (begun_first n pre Np Sp) as (Z1 & Z2). destruct (run_wf pre buf_empty buf_empty_wf ltac:(reflexivity) Fp) as (Wp & Bp). set (b0 := buf_run buf_empty pre) in *.
  unfold buf_run at 1 2. cbn [fold_left buf_step]. change (fold_left buf_step (st ++ ac) (begin_block b0 n)) with (buf_run (begin_block b0 n) (st ++ ac)).
  assert (Fl : Forall in_block (st ++ ac)).
  { apply Forall_app. split; [revert Us|revert Ua]; apply Forall_impl; intros [] X; cbn in *; auto. }
  destruct (entries (st ++ ac) (begin_block b0 n) Fl) as (E1 & E2 & E3 & E4). cbn [begin_block b_block b_changed] in *.
  assert (Wf : Forall fits_op (OBegin n :: st ++ ac)) by (constructor; [exact Hn|apply Forall_app; auto]).
  destruct (run_wf (OBegin n :: st ++ ac) b0 Wp Bp Wf) as (Wr & _). unfold buf_run in Wr. cbn [fold_left buf_step] in Wr. change (fold_left buf_step (st ++ ac) (begin_block b0 n)) with (buf_run (begin_block b0 n) (st ++ ac)) in Wr.
  set (r := buf_run (begin_block b0 n) (st ++ ac)) in *.
  unfold st_now, acc_now in E3, E4. rewrite E1 in E3, E4. cbn [begin_block b_block b_acc_changes b_st_changes] in E3, E4. rewrite Z2 in E3. rewrite Z1 in E4. cbn [from_option id] in E3, E4.
  assert (E3' : forall k v, default ∅ (b_st_changes r !! n) !! k = Some v <-> exists x y, In (OStorage k.1.1 k.1.2 k.2 x y) st /\ x <> y /\ v = zeroless_view (word x)).
  { intros k v. rewrite E3, lookup_empty.
    assert (X : st_entry (st ++ ac) k None = st_entry st k None).
    { clear - Ua. generalize (@None bytes). induction st as [|o st IH]; intros before.
      - cbn [app st_entry]. apply st_entry_none. clear - Ua. induction ac as [|o ac IH]; [auto|]. apply Forall_cons_iff in Ua as (U & Ua). destruct o; cbn in U; try (now destruct U); cbn [updated_slots omap list_omap]; now apply IH.
      - destruct o; cbn [app st_entry]; apply IH. }
    rewrite X. now apply st_entry_once. }
  assert (E4' : forall a v, default ∅ (b_acc_changes r !! n) !! a = Some v <-> exists i c, In (OAccount a i c) ac /\ (i <> c \/ c = None \/ exists j l x y, In (OStorage a j l x y) st /\ x <> y) /\ v = before_image i c).
  { intros a v. rewrite E4, lookup_empty. rewrite bool_decide_false by apply not_elem_of_empty. rewrite acc_entry_slots by exact Us. cbn [orb]. rewrite acc_entry_once by assumption.
    assert (X : existsb (fun o => match o with OStorage x _ _ i c => (x =? a) && negb (c =? i) | _ => false end) st = true <-> exists j l x y, In (OStorage a j l x y) st /\ x <> y).
    { rewrite existsb_exists. split.
      - intros (o & I & Eo). destruct o as [| | |x j l i c]; try discriminate. apply andb_true_iff in Eo as (X1 & X2). apply N.eqb_eq in X1. subst x. apply negb_true_iff, N.eqb_neq in X2. exists j, l, i, c. split; [exact I|congruence].
      - intros (j & l & x & y & I & Nx). exists (OStorage a j l x y). split; [exact I|]. rewrite N.eqb_refl. cbn [andb]. apply negb_true_iff, N.eqb_neq. congruence. }
    split; intros (i & c & I & R & Ev); exists i, c; (split; [exact I|]; split; [|exact Ev]); destruct R as [R|[R|R]]; auto; right; right; now apply X. }
  pose proof (out_wf r d W) as Wo.
  assert (A : forall v, In (block_key n, v) (buf_write_to_db r d kPlainAccountChangeSet) <-> exists a w, default ∅ (b_acc_changes r !! n) !! a = Some w /\ v = addr a ++ w).
  { intros v. rewrite out_acc. rewrite (proj2 (acc_changes_in r (d kPlainAccountChangeSet) (wf_multi d kPlainAccountChangeSet W eq_refl))). split.
    - intros [I|(n' & m & a & w & I & J & E)]; [now apply D1 in I|]. apply pair_equal_spec in E as (En & ->). destruct (wb_acc_changes r Wr _ _ I) as (Hn' & _). apply be8_inj in En; [|assumption..]. subst n'. exists a, w. rewrite I. auto.
    - intros (a & w & I & ->). right. destruct (b_acc_changes r !! n) as [m|] eqn:Em; cbn [from_option id] in I; [|now rewrite lookup_empty in I]. exists n, m, a, w. auto. }
  assert (B : forall e, In e (buf_write_to_db r d kPlainStorageChangeSet) -> starts_with (fst e) (block_key n) = true -> exists a i l v, triple_ok a i l /\ e = st_rec n a i l v /\ default ∅ (b_st_changes r !! n) !! (a, i, l) = Some v).
  { intros e. rewrite out_st. rewrite (proj2 (st_changes_in r (d kPlainStorageChangeSet) (wf_multi d kPlainStorageChangeSet W eq_refl))). intros I P. apply starts_with_spec in P as (s & P). destruct I as [I|(n' & m & a & i & l & v & I & J & E)].
    - destruct e as [k v]. cbn [fst] in P. subst k. now apply D2 in I.
    - subst e. cbn [fst] in P. rewrite change_key_form in P. apply app_parts in P as (P & _); [|unfold block_key; now rewrite !be_fixed_length]. destruct (wb_st_changes r Wr _ _ I) as (Hn' & Hm). apply be8_inj in P; [|assumption..]. subst n'. exists a, i, l, v. rewrite I. split; [now apply Hm in J|]. auto. }
  assert (B2 : forall a i l v, default ∅ (b_st_changes r !! n) !! (a, i, l) = Some v -> triple_ok a i l /\ In (st_rec n a i l v) (buf_write_to_db r d kPlainStorageChangeSet)).
  { intros a i l v I. rewrite out_st. rewrite (proj2 (st_changes_in r (d kPlainStorageChangeSet) (wf_multi d kPlainStorageChangeSet W eq_refl))). destruct (b_st_changes r !! n) as [m|] eqn:Em; cbn [from_option id] in I; [|now rewrite lookup_empty in I]. destruct (wb_st_changes r Wr _ _ Em) as (_ & Hm). split; [now apply Hm in I|]. right. exists n, m, a, i, l, v. auto. }
  assert (Wa : forall a w, default ∅ (b_acc_changes r !! n) !! a = Some w -> a < 2 ^ 160).
  { intros a w I. destruct (b_acc_changes r !! n) as [m|] eqn:Em; cbn [from_option id] in I; [|now rewrite lookup_empty in I]. destruct (wb_acc_changes r Wr _ _ Em) as (_ & Hm). now apply Hm in I. }
  destruct (read_acc_changes_spec (buf_write_to_db r d) n Wo) as (am & R1 & R2).
  { intros v I. apply A in I as (a & w & I & ->). exists a, w. split; [now apply Wa in I|reflexivity]. }
  { intros a v w I I'. apply A in I as (a1 & w1 & I & X1). apply A in I' as (a2 & w2 & I' & X2). apply app_parts in X1 as (X1 & ->); [|now rewrite !addr_len]. apply app_parts in X2 as (X2 & ->); [|now rewrite !addr_len]. rewrite X1 in X2. apply addr_inj in X2; [|now apply Wa in I|now apply Wa in I']. subst a2. rewrite I in I'. now apply (inj Some) in I'. }
  destruct (read_st_changes_spec (buf_write_to_db r d) n Wo) as (sm & S1 & S2).
  { intros e I P. destruct (B e I P) as (a & i & l & v & T & E & _). exists a, i, l, v. auto. }
  { assert (SW : forall a i l v, starts_with (fst (st_rec n a i l v)) (block_key n) = true) by (intros; apply starts_with_spec; eexists; reflexivity).
    intros a i l v w I I'. destruct (B _ I (SW _ _ _ _)) as (a1 & i1 & l1 & v1 & T1 & X1 & G1). destruct (B _ I' (SW _ _ _ _)) as (a2 & i2 & l2 & v2 & T2 & X2 & G2).
    apply pair_equal_spec in X1 as (K1 & V1). apply pair_equal_spec in X2 as (K2 & V2). rewrite K1 in K2. destruct T1 as (? & ? & ?), T2 as (? & ? & ?). apply change_key_inj in K2 as (<- & <-); [|assumption..].
    apply app_parts in V1 as (L1 & ->); [|now rewrite !word_len]. apply app_parts in V2 as (L2 & ->); [|now rewrite !word_len]. rewrite L1 in L2. apply word_inj in L2; [|assumption..]. subst l2. rewrite G1 in G2. now apply (inj Some) in G2. }
  exists am, sm. split; [exact R1|]. split; [exact S1|]. split.
  - intros a v. rewrite R2, <- E4'. split.
    + intros (Ha & I). apply A in I as (a1 & w1 & I & X1). apply app_parts in X1 as (X1 & ->); [|now rewrite !addr_len]. apply addr_inj in X1; [|exact Ha|now apply Wa in I]. now subst a1.
    + intros I. split; [now apply Wa in I|]. apply A. eauto.
  - intros a j l v. rewrite S2. change (be_fixed 32) with word. rewrite <- (E3' (a, j, l)). split.
    + intros (T & I). destruct (B _ I ltac:(apply starts_with_spec; eexists; reflexivity)) as (a1 & i1 & l1 & v1 & T1 & X1 & G1). apply st_rec_inj in X1 as (-> & ->); [exact G1|exact T|exact T1].
    + apply B2.
Qed.
