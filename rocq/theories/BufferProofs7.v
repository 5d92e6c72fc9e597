(** Proofs about db::Buffer, historical reads and bitmaps: values before and after, reads as of a block, chunks. *)
From stdpp Require Import gmap sorting.
From Verif Require Import Base BaseFacts RlpModel TypesModel TypesSpec TypesProofs UtilModel UtilProofs DbTable DbModel DbSpec DbProofs BufferModel BufferSpec BufferProofs BufferProofs2 BufferProofs3 BufferProofs4 BufferProofs5 BufferProofs6.

Lemma honest_app bm_read d hist x y : forall b, honest bm_read d hist b (x ++ y) <-> honest bm_read d hist b x /\ honest bm_read d hist (buf_run b x) y.
Proof.
  induction x as [|o x IH]; intros b; [cbn; tauto|]. cbn [app honest]. rewrite IH. unfold buf_run. cbn [fold_left]. tauto.
Qed.
Lemma last_account_none ops a before : ~ In a (updated_accounts ops) -> last_account ops a before = before.
Proof.
  revert before. induction ops as [|o ops IH]; intros before N; [reflexivity|]. destruct o; cbn [last_account updated_accounts omap list_omap] in *; try (now apply IH).
  rewrite IH by (intros X; apply N; now right). destruct (N.eqb_spec a0 a) as [ -> |]; [exfalso; apply N; now left|reflexivity].
Qed.
Lemma last_storage_none ops a i l before : ~ In (a, i, l) (updated_slots ops) -> last_storage ops a i l before = before.
Proof.
  revert before. induction ops as [|o ops IH]; intros before N; [reflexivity|]. destruct o; cbn [last_storage updated_slots omap list_omap] in *; try (now apply IH).
  rewrite IH by (intros X; apply N; now right). destruct (N.eqb_spec a0 a) as [ -> |]; [|reflexivity]. destruct (N.eqb_spec inc i) as [ -> |]; [|reflexivity]. destruct (N.eqb_spec loc l) as [ -> |]; [exfalso; apply N; now left|reflexivity].
Qed.
Lemma updated_accounts_app x y : updated_accounts (x ++ y) = updated_accounts x ++ updated_accounts y.
Proof. unfold updated_accounts. apply omap_app. Qed.
Lemma updated_slots_app x y : updated_slots (x ++ y) = updated_slots x ++ updated_slots y.
Proof. unfold updated_slots. apply omap_app. Qed.
Lemma nodup_mid {A} (x : A) l r : List.NoDup (l ++ x :: r) -> ~ In x l /\ ~ In x r.
Proof. intros H. apply NoDup_remove_2 in H. split; intros I; apply H; apply in_or_app; auto. Qed.
Lemma before_after bm_read d hist b ops : honest bm_read d hist b ops ->
  (List.NoDup (updated_accounts ops) -> forall a i c, In (OAccount a i c) ops -> buf_read_account bm_read d hist b a = Done i /\ buf_read_account bm_read d hist (buf_run b ops) a = Done c)
  /\ (List.NoDup (updated_slots ops) -> forall a j l x y, In (OStorage a j l x y) ops -> buf_read_storage bm_read d hist b a j l = Done x /\ buf_read_storage bm_read d hist (buf_run b ops) a j l = Done y).
Proof.
  intros H. split.
  - intros Nd a i c I. apply in_split in I as (o1 & o2 & ->). rewrite updated_accounts_app in Nd. cbn [updated_accounts omap list_omap] in Nd. destruct (nodup_mid _ _ _ Nd) as (N1 & N2). pose proof H as H0. apply honest_app in H as (H1 & H2). cbn [honest honest_op] in H2. destruct H2 as (H2 & H3).
    split.
    + rewrite (proj1 (reads_history bm_read d hist o1 b H1)) in H2. now rewrite last_account_none in H2.
    + rewrite (proj1 (reads_history bm_read d hist _ b H0)). clear - N1 N2. generalize (buf_read_account bm_read d hist b a). induction o1 as [|o o1 IH]; intros z.
      * cbn [app last_account]. rewrite N.eqb_refl. now apply last_account_none.
      * destruct o; cbn [app last_account updated_accounts omap list_omap] in *; apply IH; try assumption. intros X. apply N1. now right.
  - intros Nd a j l x y I. apply in_split in I as (o1 & o2 & ->). rewrite updated_slots_app in Nd. cbn [updated_slots omap list_omap] in Nd. destruct (nodup_mid _ _ _ Nd) as (N1 & N2). pose proof H as H0. apply honest_app in H as (H1 & H2). cbn [honest honest_op] in H2. destruct H2 as (H2 & H3).
    split.
    + rewrite (proj1 (proj2 (reads_history bm_read d hist o1 b H1))) in H2. now rewrite last_storage_none in H2.
    + rewrite (proj1 (proj2 (reads_history bm_read d hist _ b H0))). clear - N1 N2. generalize (buf_read_storage bm_read d hist b a j l). induction o1 as [|o o1 IH]; intros z.
      * cbn [app last_storage]. rewrite !N.eqb_refl. now apply last_storage_none.
      * destruct o; cbn [app last_storage updated_slots omap list_omap] in *; apply IH; try assumption. intros X. apply N1. now right.
Qed.
(** What is recorded is enough to restore. *)
Lemma before_image_decodes i c : wf_account i -> decode_account (before_image (Some i) c) = Ok (match c with Some _ => without_code_hash i | None => i end).
Proof. intros W. unfold before_image. rewrite decode_encode_account by exact W. now destruct c. Qed.

(** ** Reads as of a block *)
Lemma historical_account_none bm_read d a n : wf_db d -> (forall k v, In (k, v) (d kCode) -> length k = 32%nat) -> historical_account bm_read d a n = None.
Proof.
  intros W L. unfold historical_account. destruct (find_first (d kCode) (account_history_key (addr a) n) (ordered_dup _ (wf_single d kCode W eq_refl))) as [(-> & _)|(pre & v & r & E & _ & _)]; [reflexivity|].
  exfalso. assert (I : In (account_history_key (addr a) n, v) (d kCode)) by (rewrite E; apply in_or_app; right; now left). apply L in I. unfold account_history_key in I. rewrite app_length, addr_len, be_fixed_length in I. discriminate.
Qed.
Lemma historical_reads_current bm_read d a n : wf_db d -> (forall k v, In (k, v) (d kCode) -> length k = 32%nat) -> read_account bm_read d a (Some n) = read_account bm_read d a None.
Proof. intros W L. unfold read_account. now rewrite historical_account_none. Qed.

Lemma merge_sorted b : StronglySorted N.le (merge_sort N.le (elements (b : bitmap))).
Proof. apply StronglySorted_merge_sort; try exact _; intros x y; lia. Qed.
Lemma merge_in (b : bitmap) x : In x (merge_sort N.le (elements b)) <-> x ∈ b.
Proof. rewrite <- elem_of_list_In, merge_sort_Permutation. apply elem_of_elements. Qed.
Lemma seek_spec (b : bitmap) n :
  (forall x, seek b n = Some x <-> x ∈ b /\ n <= x /\ (forall y, y ∈ b -> n <= y -> x <= y)) /\ (seek b n = None <-> forall y, y ∈ b -> ~ n <= y).
Proof.
  unfold seek. assert (S := merge_sorted b). assert (I := merge_in b). revert S I. generalize (merge_sort N.le (elements b)). intros l S I.
  set (f := base.filter (fun x => (n ≤ x)%N) l). assert (If : forall x, In x f <-> x ∈ b /\ n <= x) by (intros x; unfold f; rewrite <- elem_of_list_In, elem_of_list_filter, elem_of_list_In, I; tauto).
  assert (Sf : StronglySorted N.le f).
  { unfold f. clear - S. induction l as [|y l IH]; [constructor|]. apply sorted_cons_inv in S as (S & F). rewrite filter_cons. destruct (decide _); [|auto]. constructor; [auto|]. apply Forall_forall. intros z Hz. apply F. rewrite <- elem_of_list_In in *. now apply elem_of_list_filter in Hz. }
  destruct f as [|x r]; cbn [hd_error].
  - split; [|split; [intros _ y Y1 Y2; destruct (proj2 (If y)); auto|reflexivity]]. intros x. split; [discriminate|]. intros (X1 & X2 & _). destruct (proj2 (If x)); auto.
  - assert (X := proj1 (If x) (or_introl eq_refl)). split; [|split; [discriminate|intros N; exfalso; apply (N x); tauto]]. apply sorted_cons_inv in Sf as (_ & F). intros z. split.
    + intros E. injection E as <-. split; [tauto|]. split; [tauto|]. intros y Y1 Y2. destruct (proj2 (If y)) as [ <- |J]; [auto|lia|now apply F].
    + intros (Z1 & Z2 & Z3). f_equal. apply N.le_antisymm; [|apply Z3; tauto]. destruct (proj2 (If z)) as [ <- |J]; [auto|lia|now apply F].
Qed.
Lemma constant_until changed val n m : slot_history changed val -> n <= m -> (forall k, n <= k -> k < m -> ~ changed k) -> val m = val n.
Proof.
  intros H. pattern m. apply N.peano_ind; clear m; [intros L _; now replace n with 0 by lia|]. intros m IH L N. destruct (N.eq_dec n (N.succ m)) as [ -> |Ne]; [reflexivity|].
  rewrite <- N.add_1_r, H by (apply N; lia). apply IH; [lia|]. intros k K1 K2. apply N; lia.
Qed.
Lemma starts_refl (p s : bytes) : firstn (length p) (p ++ s) = p /\ skipn (length p) (p ++ s) = s.
Proof. rewrite firstn_app, skipn_app, firstn_all, skipn_all, Nat.sub_diag. cbn [firstn skipn]. split; [apply app_nil_r|reflexivity]. Qed.
Lemma historical_storage_stored bm_read d a inc loc n changed val last : wf_db d -> (forall m, val m < 2 ^ 256) -> slot_history changed val ->
  history_stored bm_read d a inc loc n changed val last -> read_storage bm_read d a inc loc (Some n) = Done (val n).
Proof.
  intros W V H [ (chunk & C1 & C2) Hc Hl He].
  assert (S : historical_storage bm_read d a inc loc n = match seek (bm_read chunk) n with None => None | Some cb => find_value_suffix (d kPlainStorageChangeSet) (storage_change_key cb (addr a) inc) (word loc) end).
  { unfold historical_storage. assert (L : lookup (d kStorageHistory) (storage_history_key (addr a) (word loc) n) = Some chunk) by (apply lookup_spec; [now apply wf_single|exact C1]).
    unfold lookup in L. destruct (find_first _ (storage_history_key (addr a) (word loc) n) (ordered_dup _ (wf_single d kStorageHistory W eq_refl))) as [(E & _)|(pre & v & r & _ & E & _)]; rewrite E in L; [discriminate|]. cbn [snd] in L. apply (inj Some) in L. subst v. rewrite E. cbn [fst snd]. unfold storage_history_key.
    pose proof (starts_refl (addr a) (word loc ++ be_fixed 8 n)) as (X1 & X2). rewrite addr_len in X1, X2. rewrite X1, X2. pose proof (starts_refl (word loc) (be_fixed 8 n)) as (Y1 & _). rewrite word_len in Y1. rewrite Y1, !eqb_refl. reflexivity. }
  unfold read_storage. rewrite S. destruct (seek_spec (bm_read chunk) n) as (K1 & K2). destruct (seek (bm_read chunk) n) as [cb|] eqn:Es.
  - destruct (proj1 (K1 cb) eq_refl) as (I & L & M). assert (Cc : changed cb) by now apply C2.
    assert (F : find_value_suffix (d kPlainStorageChangeSet) (storage_change_key cb (addr a) inc) (word loc) = Some (zeroless_view (word (val cb)))).
    { apply find_value_suffix_spec; [now apply wf_multi|]. split; [now apply (Hc cb)|]. intros s I'. left. now apply (Hc cb) in I'. }
    rewrite F. destruct (zeroless_word (val cb) (V cb)) as (-> & ->). f_equal. apply (constant_until changed val n cb H L). intros k Kn Kc Ck. apply C2 in Ck; [|exact Kn]. pose proof (M k Ck Kn). lia.
  - change (read_storage bm_read d a inc loc None = Done (val n)). rewrite Hl. f_equal. symmetry. apply He. intros m Lm Cm. apply C2 in Cm; [|exact Lm]. exact (proj1 K2 eq_refl m Cm Lm).
Qed.
(** Without a chunk under exactly n the current value is read. *)
Lemma historical_storage_missed bm_read d a inc loc n : wf_db d -> (forall chunk, ~ In (storage_history_key (addr a) (word loc) n, chunk) (d kStorageHistory)) ->
  read_storage bm_read d a inc loc (Some n) = read_storage bm_read d a inc loc None.
Proof.
  intros W N. unfold read_storage, historical_storage. destruct (find_first _ (storage_history_key (addr a) (word loc) n) (ordered_dup _ (wf_single d kStorageHistory W eq_refl))) as [(-> & _)|(pre & v & r & E & _ & _)]; [reflexivity|].
  exfalso. apply (N v). rewrite E. apply in_or_app. right. now left.
Qed.

(** ** Chunks *)
Lemma bounds_spec (b : bitmap) : b <> ∅ -> exists mn mx, bm_minimum b = Some mn /\ bm_maximum b = Some mx /\ mn ∈ b /\ mx ∈ b /\ (forall x, x ∈ b -> mn <= x <= mx).
Proof.
  intros Nb. unfold bm_minimum, bm_maximum. assert (S := merge_sorted b). assert (I := merge_in b). revert S I. generalize (merge_sort N.le (elements b)). intros l S I.
  destruct l as [|mn r]; [exfalso; apply Nb; apply set_eq; intros x; rewrite <- I; set_solver|].
  destruct (list.last (mn :: r)) as [mx|] eqn:El; [|now apply last_None in El]. exists mn, mx. split; [reflexivity|]. split; [reflexivity|]. apply last_Some in El as (l' & El). split; [apply I; now left|]. split; [apply I; rewrite El; apply in_or_app; right; now left|].
  intros x Hx. apply I in Hx. split.
  - apply sorted_cons_inv in S as (_ & F). destruct Hx as [ <- |Hx]; [lia|now apply F].
  - rewrite El in S, Hx. apply sorted_app in S as (_ & _ & F). apply in_app_or in Hx as [Hx|[ <- |[]]]; [|lia]. apply F; [exact Hx|now left].
Qed.
Lemma cut_search_stop size fuel b from limit i : cut_search size fuel b from limit i 0 = Done i.
Proof. destruct fuel; cbn [cut_search]; (destruct (N.ltb_spec i 0); [lia|reflexivity]). Qed.
Lemma cut_left_spec size b limit : b <> ∅ -> (forall x, x ∈ b -> x < 2 ^ 32) ->
  exists mn mx, mn ∈ b /\ mx ∈ b /\ (forall x, x ∈ b -> mn <= x <= mx)
    /\ cut_left size b limit = (if size b <=? limit then Done (b, ∅) else if mn =? mx then Undefined else Done (b ∖ {[mx]}, ∅)).
Proof.
  intros Nb B. destruct (bounds_spec b Nb) as (mn & mx & E1 & E2 & I1 & I2 & F). exists mn, mx. split; [exact I1|]. split; [exact I2|]. split; [exact F|]. unfold cut_left. rewrite E1, E2. pose proof (B mx I2) as Bx. pose proof (F mn I1) as Fn.
  destruct (size b <=? limit).
  - unfold from_range. rewrite N.min_l by lia. destruct (N.leb_spec (mx + 1) mn); [lia|]. cbn [obind]. do 2 f_equal. apply set_eq. intros x. rewrite elem_of_filter. split; [tauto|]. intros Hx. split; [|exact Hx]. pose proof (F x Hx). apply andb_true_iff. rewrite N.leb_le, N.ltb_lt. lia.
  - rewrite cut_search_stop. cbn [obind]. unfold from_range. replace (mn + (mx - mn)) with mx by lia. rewrite N.min_l by lia.
    destruct (N.eqb_spec mn mx) as [Em|Nm]; [destruct (N.leb_spec mx mn); [reflexivity|lia]|]. destruct (N.leb_spec mx mn); [lia|]. cbn [obind]. f_equal. f_equal.
    + apply set_eq. intros x. rewrite elem_of_filter, elem_of_difference, elem_of_singleton, andb_true_iff, N.leb_le, N.ltb_lt. split; [intros ((L1 & L2) & Hx); split; [exact Hx|lia]|]. intros (Hx & Nx). pose proof (F x Hx). split; [lia|exact Hx].
    + apply set_eq. intros x. rewrite elem_of_filter. split; [|intros X; now apply not_elem_of_empty in X]. intros (N & Hx). exfalso. apply N. pose proof (F x Hx). lia.
Qed.
