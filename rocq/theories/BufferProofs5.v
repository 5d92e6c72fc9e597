(** Proofs about db::Buffer: reading back the change sets. *)
From stdpp Require Import gmap sorting.
From Verif Require Import Base BaseFacts RlpModel TypesModel TypesSpec TypesProofs UtilModel UtilProofs DbTable DbModel DbSpec DbProofs BufferModel BufferSpec BufferProofs BufferProofs2 BufferProofs3 BufferProofs4.

(** ** Writing *)
Lemma put_fold {A} (key val : A -> bytes) (l : list A) : forall t, dup_ordered t ->
  dup_ordered (fold_left (fun t x => put_dup t (key x) (val x)) l t)
  /\ (forall e, In e (fold_left (fun t x => put_dup t (key x) (val x)) l t) <-> In e t \/ exists x, In x l /\ e = (key x, val x)).
Proof.
  induction l as [|x l IH]; intros t H; [split; [exact H|]; intros e; split; [auto|intros [?|(? & [] & _)]; assumption]|]. cbn [fold_left]. destruct (IH (put_dup t (key x) (val x)) (put_dup_ordered t _ _ H)) as (A1 & A2). split; [exact A1|].
  intros e. rewrite A2, put_dup_in by exact H. split.
  - intros [[E|I]|(y & I & E)]; [right; exists x; split; [now left|exact E]|auto|right; exists y; split; [now right|exact E]].
  - intros [I|(y & [E|I] & Ee)]; [auto|subst y; auto|right; eauto].
Qed.
Lemma put_fold2 {A B} (inner : A -> list B) (key val : A -> B -> bytes) (l : list A) : forall t, dup_ordered t ->
  dup_ordered (fold_left (fun t a => fold_left (fun t x => put_dup t (key a x) (val a x)) (inner a) t) l t)
  /\ (forall e, In e (fold_left (fun t a => fold_left (fun t x => put_dup t (key a x) (val a x)) (inner a) t) l t) <-> In e t \/ exists a x, In a l /\ In x (inner a) /\ e = (key a x, val a x)).
Proof.
  induction l as [|a l IH]; intros t H; [split; [exact H|]; intros e; split; [auto|intros [?|(? & ? & [] & _)]; assumption]|]. cbn [fold_left]. destruct (put_fold (key a) (val a) (inner a) t H) as (B1 & B2). destruct (IH _ B1) as (A1 & A2). split; [exact A1|].
  intros e. rewrite A2, B2. split.
  - intros [[I|(x & I & E)]|(a' & x & I & J & E)]; [auto|right; exists a, x; split; [now left|auto]|right; exists a', x; split; [now right|auto]].
  - intros [I|(a' & x & [E|I] & J & Ee)]; [auto|subst a'; left; right; eauto|right; eauto].
Qed.
Lemma acc_changes_in b t : dup_ordered t -> dup_ordered (write_acc_changes b t)
  /\ (forall e, In e (write_acc_changes b t) <-> In e t \/ exists n m a v, b_acc_changes b !! n = Some m /\ m !! a = Some v /\ e = (block_key n, addr a ++ v)).
Proof.
  intros H. destruct (put_fold2 (fun be : N * gmap N bytes => map_to_list be.2) (fun be ae => block_key be.1) (fun be ae => addr ae.1 ++ ae.2) (map_to_list (b_acc_changes b)) t H) as (A1 & A2). split; [exact A1|]. intros e. unfold write_acc_changes. rewrite A2. split; (intros [I|X]; [auto|right]).
  - destruct X as ([n m] & [a v] & I & J & E). cbn [fst snd] in *. apply elem_of_list_In, elem_of_map_to_list in I. apply elem_of_list_In, elem_of_map_to_list in J. exists n, m, a, v. auto.
  - destruct X as (n & m & a & v & I & J & E). exists (n, m), (a, v). cbn [fst snd]. split; [now apply elem_of_list_In, elem_of_map_to_list|]. split; [now apply elem_of_list_In, elem_of_map_to_list|exact E].
Qed.
Lemma st_changes_in b t : dup_ordered t -> dup_ordered (write_st_changes b t)
  /\ (forall e, In e (write_st_changes b t) <-> In e t \/ exists n m a i l v, b_st_changes b !! n = Some m /\ m !! (a, i, l) = Some v /\ e = (storage_change_key n (addr a) i, word l ++ v)).
Proof.
  intros H. destruct (put_fold2 (fun be : N * gmap (N * N * N) bytes => map_to_list be.2) (fun be se => storage_change_key be.1 (addr se.1.1.1) se.1.1.2) (fun be se => word se.1.2 ++ se.2) (map_to_list (b_st_changes b)) t H) as (A1 & A2). split; [exact A1|]. intros e. unfold write_st_changes. rewrite A2. split; (intros [I|X]; [auto|right]).
  - destruct X as ([n m] & [[[a i] l] v] & I & J & E). cbn [fst snd] in *. apply elem_of_list_In, elem_of_map_to_list in I. apply elem_of_list_In, elem_of_map_to_list in J. exists n, m, a, i, l, v. auto.
  - destruct X as (n & m & a & i & l & v & I & J & E). exists (n, m), (a, i, l, v). cbn [fst snd]. split; [now apply elem_of_list_In, elem_of_map_to_list|]. split; [now apply elem_of_list_In, elem_of_map_to_list|exact E].
Qed.

(** ** Reading *)
Lemma addr_split a v : a < 2 ^ 160 -> (length (addr a ++ v) <? 20)%nat = false /\ be_to_N (firstn 20 (addr a ++ v)) = a /\ skipn 20 (addr a ++ v) = v.
Proof.
  intros Ha. split; [apply Nat.ltb_ge; rewrite app_length, addr_len; lia|]. split.
  - replace 20%nat with (length (addr a)) by apply addr_len. rewrite firstn_app, firstn_all, Nat.sub_diag, firstn_O, app_nil_r. unfold addr. now apply be_to_N_be_fixed_small.
  - replace 20%nat with (length (addr a)) by apply addr_len. rewrite skipn_app, skipn_all, Nat.sub_diag. reflexivity.
Qed.
Lemma word_split a v : a < 2 ^ 256 -> (length (word a ++ v) <? 32)%nat = false /\ be_to_N (firstn 32 (word a ++ v)) = a /\ skipn 32 (word a ++ v) = v.
Proof.
  intros Ha. split; [apply Nat.ltb_ge; rewrite app_length, word_len; lia|]. split.
  - replace 32%nat with (length (word a)) by apply word_len. rewrite firstn_app, firstn_all, Nat.sub_diag, firstn_O, app_nil_r. unfold word. now apply be_to_N_be_fixed_small.
  - replace 32%nat with (length (word a)) by apply word_len. rewrite skipn_app, skipn_all, Nat.sub_diag. reflexivity.
Qed.
Lemma pair_le_key t x y : dup_ordered (x :: t) -> In y t -> lex_lt (fst y) (fst x) = false.
Proof. intros H I. apply sorted_cons_inv in H as (_ & F). apply F in I. now apply pair_lt_le. Qed.

Lemma collect_acc k p : forall acc, dup_ordered p -> (forall e, In e p -> lex_lt (fst e) k = false) ->
  (forall v, In (k, v) p -> exists a (w : bytes), a < 2 ^ 160 /\ v = addr a ++ w) ->
  (forall a (v w : bytes), In (k, addr a ++ v) p -> In (k, addr a ++ w) p -> v = w) ->
  exists m, collect_account_changes p k acc = Done m
    /\ (forall a (v : bytes), a < 2 ^ 160 -> In (k, addr a ++ v) p -> m !! a = Some v)
    /\ (forall a, (a < 2 ^ 160 -> forall v : bytes, ~ In (k, addr a ++ v) p) -> m !! a = acc !! a)
    /\ (forall a (v : bytes), m !! a = Some v -> acc !! a = Some v \/ (a < 2 ^ 160 /\ In (k, addr a ++ v) p)).
Proof.
  induction p as [|[k0 v0] p IH]; intros acc H G F U; [exists acc; split; [reflexivity|]; split; [intros ? ? ? []|split; [reflexivity|auto]]|].
  cbn [collect_account_changes fst snd]. destruct (eqb_spec k0 k) as [ -> |Nk].
  - destruct (F v0) as (a & w & Ha & ->); [now left|]. destruct (addr_split a w Ha) as (-> & -> & ->).
    destruct (IH (<[a:=w]> acc)) as (m & E & M1 & M2 & M3); [now apply sorted_cons_inv in H|intros e I; apply G; now right|intros v I; apply F; now right|intros x v v' I I'; apply (U x); now right|].
    exists m. split; [exact E|]. split.
    + intros x v Hx [I|I]; [|now apply M1]. apply (f_equal snd) in I. cbn [snd] in I. apply app_parts in I as (I1 & I2); [|now rewrite !addr_len]. apply addr_inj in I1; [|assumption..]. subst x v.
      rewrite (M2 a); [apply lookup_insert|]. intros _ v I. apply sorted_cons_inv in H as (_ & H). assert (v = w) by (apply (U a); [now right|now left]). subst v. apply H in I. now rewrite pair_lt_irrefl in I.
    + split.
      * intros x Nx. rewrite M2; [|intros Hx v I; apply (Nx Hx v); now right]. rewrite lookup_insert_ne; [reflexivity|]. intros ->. apply (Nx Ha w). now left.
      * intros x v Ex. apply M3 in Ex as [Ex|(Hx & I)]; [|right; split; [exact Hx|now right]]. destruct (N.eq_dec x a) as [ -> |Nx]; [|rewrite lookup_insert_ne in Ex by congruence; auto]. rewrite lookup_insert in Ex. apply (inj Some) in Ex. subst v. right. split; [exact Ha|now left].
  - assert (NI : forall v : bytes, ~ In (k, v) ((k0, v0) :: p)).
    { intros v [I|I]; [congruence|]. assert (L := pair_le_key p (k0, v0) (k, v) H I). cbn [fst] in L. assert (L2 := G (k0, v0) (or_introl eq_refl)). cbn [fst] in L2. apply Nk. now apply lex_lt_total. }
    exists acc. split; [reflexivity|]. split; [intros a v _ I; now apply NI in I|split; [reflexivity|auto]].
Qed.
Lemma read_acc_changes_spec d n : wf_db d ->
  (forall v, In (block_key n, v) (d kPlainAccountChangeSet) -> exists a (w : bytes), a < 2 ^ 160 /\ v = addr a ++ w) ->
  (forall a (v w : bytes), In (block_key n, addr a ++ v) (d kPlainAccountChangeSet) -> In (block_key n, addr a ++ w) (d kPlainAccountChangeSet) -> v = w) ->
  exists m, read_account_changes d n = Done m /\ (forall a (v : bytes), m !! a = Some v <-> a < 2 ^ 160 /\ In (block_key n, addr a ++ v) (d kPlainAccountChangeSet)).
Proof.
  intros W F U. pose proof (wf_multi d kPlainAccountChangeSet W eq_refl) as H. unfold read_account_changes. destruct (find_first _ (block_key n) H) as [(E & N)|(pre & w & r & E & Ef & Fp)].
  - rewrite E. exists ∅. split; [reflexivity|]. intros a v. rewrite lookup_empty. split; [discriminate|]. intros (_ & I). now apply N in I.
  - rewrite Ef. assert (H' : dup_ordered ((block_key n, w) :: r)) by (rewrite E in H; now apply sorted_app in H).
    assert (IN : forall v, In (block_key n, v) (d kPlainAccountChangeSet) <-> In (block_key n, v) ((block_key n, w) :: r)).
    { intros v. rewrite E, in_app_iff. split; [|auto]. intros [I|I]; [|exact I]. apply Fp in I. cbn [fst] in I. rewrite lex_lt_irrefl in I. discriminate. }
    destruct (collect_acc (block_key n) ((block_key n, w) :: r) ∅ H') as (m & Em & M1 & _ & M3).
    + intros e [<-|I]; [apply lex_lt_irrefl|]. now apply (pair_le_key r (block_key n, w)).
    + intros v I. apply F. now apply IN.
    + intros a v v' I I'. apply (U a); now apply IN.
    + exists m. split; [exact Em|]. intros a v. rewrite IN. split.
      * intros Ea. apply M3 in Ea as [Ea|X]; [now rewrite lookup_empty in Ea|exact X].
      * intros (Ha & I). now apply M1.
Qed.

Lemma change_key_form n a i : storage_change_key n a i = block_key n ++ (a ++ be_fixed 8 i).
Proof. reflexivity. Qed.
Lemma be8_split i : i < 2 ^ 64 -> be_to_N (firstn 8 (be_fixed 8 i)) = i.
Proof. intros Hi. rewrite firstn_all2 by now rewrite be_fixed_length. now apply be_to_N_be_fixed_small. Qed.
Lemma change_key_split n a i : a < 2 ^ 160 -> i < 2 ^ 64 ->
  let k := skipn (length (block_key n)) (storage_change_key n (addr a) i) in (length k <? 28)%nat = false /\ be_to_N (firstn 20 k) = a /\ be_to_N (firstn 8 (skipn 20 k)) = i.
Proof.
  intros Ha Hi k. assert (Ek : k = addr a ++ be_fixed 8 i) by (unfold k; rewrite change_key_form, skipn_app, skipn_all, Nat.sub_diag; reflexivity). rewrite Ek. clear k Ek.
  destruct (addr_split a (be_fixed 8 i) Ha) as (_ & -> & ->). split; [apply Nat.ltb_ge; rewrite app_length, addr_len, be_fixed_length; lia|]. split; [reflexivity|now apply be8_split].
Qed.
Lemma change_key_inj n a b i j : a < 2 ^ 160 -> b < 2 ^ 160 -> i < 2 ^ 64 -> j < 2 ^ 64 -> storage_change_key n (addr a) i = storage_change_key n (addr b) j -> a = b /\ i = j.
Proof. intros Ha Hb Hi Hj E. rewrite !change_key_form in E. apply app_inv_head in E. now apply prefix_inj in E. Qed.
Definition st_rec (n a i l : N) (v : bytes) : entry := (storage_change_key n (addr a) i, word l ++ v).
Definition triple_ok (a i l : N) : Prop := a < 2 ^ 160 /\ i < 2 ^ 64 /\ l < 2 ^ 256.
Lemma st_rec_inj n a i l v b j k w : triple_ok a i l -> triple_ok b j k -> st_rec n a i l v = st_rec n b j k w -> (a, i, l) = (b, j, k) /\ v = w.
Proof.
  intros (Ha & Hi & Hl) (Hb & Hj & Hk) E. apply pair_equal_spec in E as (E1 & E2). apply change_key_inj in E1 as (-> & ->); [|assumption..]. apply app_parts in E2 as (E2 & ->); [|now rewrite !word_len]. apply word_inj in E2; [|assumption..]. now subst k.
Qed.
Lemma prefix_stops k p x y : dup_ordered (x :: p) -> lex_lt (fst x) k = false -> starts_with (fst x) k = false -> In y p -> starts_with (fst y) k = false.
Proof.
  intros H G N I. destruct (starts_with (fst y) k) eqn:E; [|reflexivity]. apply starts_with_spec in E as (s & E). assert (L := pair_le_key p x y H I). rewrite E in L.
  destruct (lex_between k (fst x) s G L) as (s' & E'). assert (starts_with (fst x) k = true); [apply starts_with_spec; eauto|congruence].
Qed.
Lemma collect_st n p : forall acc, dup_ordered p -> (forall e, In e p -> lex_lt (fst e) (block_key n) = false) ->
  (forall e, In e p -> starts_with (fst e) (block_key n) = true -> exists a i l v, triple_ok a i l /\ e = st_rec n a i l v) ->
  (forall a i l v w, In (st_rec n a i l v) p -> In (st_rec n a i l w) p -> v = w) ->
  exists m, collect_storage_changes p (block_key n) acc = Done m
    /\ (forall a i l v, triple_ok a i l -> In (st_rec n a i l v) p -> m !! (a, i, l) = Some v)
    /\ (forall a i l, (triple_ok a i l -> forall v, ~ In (st_rec n a i l v) p) -> m !! (a, i, l) = acc !! (a, i, l))
    /\ (forall a i l v, m !! (a, i, l) = Some v -> acc !! (a, i, l) = Some v \/ (triple_ok a i l /\ In (st_rec n a i l v) p)).
Proof.
  induction p as [|e0 p IH]; intros acc H G F U; [exists acc; split; [reflexivity|]; split; [intros ? ? ? ? ? []|split; [reflexivity|auto]]|].
  cbn [collect_storage_changes]. destruct (starts_with (fst e0) (block_key n)) eqn:Es.
  - destruct (F e0) as (a & i & l & w & T & ->); [now left|exact Es|]. destruct T as (Ha & Hi & Hl). cbn [st_rec fst snd].
    destruct (change_key_split n a i Ha Hi) as (X1 & X2 & X3). destruct (word_split l w Hl) as (Y1 & Y2 & Y3). rewrite X1, X2, X3, Y1, Y2, Y3. cbn [orb].
    destruct (IH (<[(a, i, l):=w]> acc)) as (m & E & M1 & M2 & M3); [now apply sorted_cons_inv in H|intros e I; apply G; now right|intros e I; apply F; now right|intros x j k v v' I I'; apply (U x j k); now right|].
    exists m. split; [exact E|]. split; [|split].
    + intros x j k v T [I|I]; [|now apply M1]. apply st_rec_inj in I as (I1 & I2); [|repeat split; assumption|exact T]. rewrite <- I1. rewrite M2; [rewrite lookup_insert; now rewrite I2|].
      intros _ v' I. apply sorted_cons_inv in H as (_ & H). assert (v' = w) by (apply (U a i l); [now right|now left]). subst v'. apply H in I. now rewrite pair_lt_irrefl in I.
    + intros x j k Nx. rewrite M2; [|intros T v I; apply (Nx T v); now right]. destruct (decide ((a, i, l) = (x, j, k))) as [Ek|Nk]; [|now rewrite lookup_insert_ne].
      exfalso. apply pair_equal_spec in Ek as (Ek & <-). apply pair_equal_spec in Ek as (<- & <-). apply (Nx ltac:(repeat split; assumption) w). now left.
    + intros x j k v Ex. apply M3 in Ex as [Ex|(T & I)]; [|right; split; [exact T|now right]]. destruct (decide ((a, i, l) = (x, j, k))) as [Ek|Nk]; [|rewrite lookup_insert_ne in Ex by exact Nk; auto].
      rewrite Ek, lookup_insert in Ex. apply (inj Some) in Ex. subst v. right. apply pair_equal_spec in Ek as (Ek & <-). apply pair_equal_spec in Ek as (<- & <-). split; [repeat split; assumption|now left].
  - assert (NI : forall a i l v, ~ In (st_rec n a i l v) (e0 :: p)).
    { intros a i l v I. assert (starts_with (fst (st_rec n a i l v)) (block_key n) = true) by (apply starts_with_spec; exists (addr a ++ be_fixed 8 i); reflexivity).
      destruct I as [I|I]; [congruence|]. rewrite (prefix_stops (block_key n) p e0 _ H (G e0 (or_introl eq_refl)) Es I) in H0. discriminate. }
    exists acc. split; [reflexivity|]. split; [intros a i l v _ I; now apply NI in I|split; [reflexivity|auto]].
Qed.
Lemma read_st_changes_spec d n : wf_db d ->
  (forall e, In e (d kPlainStorageChangeSet) -> starts_with (fst e) (block_key n) = true -> exists a i l v, triple_ok a i l /\ e = st_rec n a i l v) ->
  (forall a i l v w, In (st_rec n a i l v) (d kPlainStorageChangeSet) -> In (st_rec n a i l w) (d kPlainStorageChangeSet) -> v = w) ->
  exists m, read_storage_changes d n = Done m /\ (forall a i l v, m !! (a, i, l) = Some v <-> triple_ok a i l /\ In (st_rec n a i l v) (d kPlainStorageChangeSet)).
Proof.
  intros W F U. pose proof (wf_multi d kPlainStorageChangeSet W eq_refl) as H. unfold read_storage_changes. destruct (lower_bound_app (d kPlainStorageChangeSet) (block_key n)) as (pre & E & Fp). rewrite Forall_forall in Fp.
  set (p := lower_bound (d kPlainStorageChangeSet) (block_key n)) in *. assert (Hp : dup_ordered p) by (rewrite E in H; now apply sorted_app in H).
  assert (IN : forall a i l v, In (st_rec n a i l v) (d kPlainStorageChangeSet) <-> In (st_rec n a i l v) p).
  { intros a i l v. rewrite E at 1. rewrite in_app_iff. split; [|auto]. intros [I|I]; [|exact I]. apply Fp in I. unfold st_rec in I. cbn [fst] in I. rewrite change_key_form, lex_prefix_ge in I. discriminate. }
  destruct (collect_st n p ∅ Hp) as (m & Em & M1 & _ & M3).
  - intros e I. destruct p as [|x r] eqn:Ep; [destruct I|]. assert (L := lower_bound_head _ _ _ _ Ep). destruct I as [ <- |I]; [exact L|]. assert (L2 := pair_le_key r x e Hp I).
    destruct (lex_lt (fst e) (block_key n)) eqn:L3; [|reflexivity]. destruct (lex_cmp (fst x) (fst e)) as [C|[C|C]]; [|congruence|congruence]. rewrite (lex_lt_trans _ _ _ C L3) in L. discriminate.
  - intros e I. apply F. rewrite E. apply in_or_app. now right.
  - intros a i l v w I I'. apply (U a i l); now apply IN.
  - exists m. split; [exact Em|]. intros a i l v. rewrite IN. split; [|intros (T & I); now apply M1]. intros Ea. apply M3 in Ea as [Ea|X]; [now rewrite lookup_empty in Ea|exact X].
Qed.
