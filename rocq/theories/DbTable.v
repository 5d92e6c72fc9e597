(** Tables of the embedded key-value store (libmdbx), as the code of db/silkworm uses them through mdbx::cursor.
    The store itself is not part of the repository's own code: this is the interface of libmdbx/mdbx.h++ that is relied upon. *)
From Coq Require Import Sorting.Sorted.
From Verif Require Import Base BaseFacts.

Definition entry : Type := bytes * bytes.
(** A table is the list of its records in the order of the cursor: by key, then by value, both compared byte-wise with
    prefixes first (the default comparison functions of libmdbx). A cursor position is the rest of the table from there on,
    and [[]] when a move fails (`done == false`). *)
Definition table : Type := list entry.

(** cursor::lower_bound (MDBX_SET_RANGE) *)
Fixpoint lower_bound (t : table) (k : bytes) : table :=
  match t with
  | [] => []
  | e :: r => if lex_lt (fst e) k then lower_bound r k else t
  end.
(** cursor::find (MDBX_SET_KEY) *)
Definition find (t : table) (k : bytes) : table :=
  match lower_bound t k with
  | e :: r => if bytes_eqb (fst e) k then e :: r else []
  | [] => []
  end.
(** The value a successful find returns. *)
Definition lookup (t : table) (k : bytes) : option bytes := match find t k with e :: _ => Some (snd e) | [] => None end.
(** cursor::lower_bound_multivalue (MDBX_GET_BOTH_RANGE) *)
Fixpoint skip_values (t : table) (k v : bytes) : table :=
  match t with
  | [] => []
  | e :: r => if bytes_eqb (fst e) k then if lex_lt (snd e) v then skip_values r k v else t else []
  end.
Definition lower_bound_multivalue (t : table) (k v : bytes) : table := skip_values (find t k) k v.
(** cursor::find_multivalue: in the bundled mdbx.h++ the move operation is MDBX_SET_KEY, so the value is ignored. *)
Definition find_multivalue (t : table) (k v : bytes) : table := find t k.
(** cursor::to_next(false) *)
Definition to_next (p : table) : table := tl p.
(** cursor::to_current_next_multi(false) *)
Definition to_current_next_multi (p : table) : table :=
  match p with
  | e :: ((e' :: _) as r) => if bytes_eqb (fst e') (fst e) then r else []
  | _ => []
  end.
(** cursor::upsert on a table without duplicates *)
Fixpoint upsert (t : table) (k v : bytes) : table :=
  match t with
  | [] => [(k, v)]
  | e :: r => if lex_lt (fst e) k then e :: upsert r k v else if bytes_eqb (fst e) k then (k, v) :: r else (k, v) :: t
  end.
(** cursor::upsert on a table with duplicates: a new record unless it is there already *)
Definition pair_lt (a b : entry) : bool := lex_lt (fst a) (fst b) || (bytes_eqb (fst a) (fst b) && lex_lt (snd a) (snd b)).
Fixpoint put_dup (t : table) (k v : bytes) : table :=
  match t with
  | [] => [(k, v)]
  | e :: r => if pair_lt e (k, v) then e :: put_dup r k v else if bytes_eqb (fst e) k && bytes_eqb (snd e) v then t else (k, v) :: t
  end.
(** cursor::erase at a record, and erase(key, whole_multivalue = true) *)
Definition erase_at (t : table) (e : entry) : table := filter (fun x => negb (bytes_eqb (fst x) (fst e) && bytes_eqb (snd x) (snd e))) t.
Definition erase_key (t : table) (k : bytes) : table := filter (fun x => negb (bytes_eqb (fst x) k)) t.

Definition ordered (t : table) : Prop := StronglySorted (fun a b => lex_lt (fst a) (fst b) = true) t.
Definition dup_ordered (t : table) : Prop := StronglySorted (fun a b => pair_lt a b = true) t.

(** ** Facts *)
Lemma eqb_true a b : bytes_eqb a b = true -> a = b. Proof. apply bytes_eqb_eq. Qed.
Lemma eqb_refl a : bytes_eqb a a = true. Proof. now apply bytes_eqb_eq. Qed.
Lemma eqb_false a b : bytes_eqb a b = false <-> a <> b.
Proof. split; [intros H ->; now rewrite eqb_refl in H|]. intros H. destruct (bytes_eqb a b) eqn:E; [|reflexivity]. now apply eqb_true in E. Qed.
Lemma eqb_spec a b : reflect (a = b) (bytes_eqb a b).
Proof. destruct (bytes_eqb a b) eqn:E; constructor; [now apply eqb_true|now apply eqb_false]. Qed.
Lemma bytes_dec (a b : bytes) : {a = b} + {a <> b}.
Proof. destruct (eqb_spec a b); auto. Qed.
Lemma lex_cmp a b : lex_lt a b = true \/ a = b \/ lex_lt b a = true.
Proof. destruct (lex_lt a b) eqn:E; [auto|]. destruct (lex_lt b a) eqn:E2; [auto|]. right. left. now apply lex_lt_total. Qed.

Lemma lower_bound_app t k : exists pre, t = pre ++ lower_bound t k /\ Forall (fun e => lex_lt (fst e) k = true) pre.
Proof.
  induction t as [|e r (pre & E & F)]; [exists []; auto|]. cbn [lower_bound]. destruct (lex_lt (fst e) k) eqn:L; [|exists []; auto].
  exists (e :: pre). split; [cbn [app]; now rewrite <- E|]. now constructor.
Qed.
Lemma lower_bound_head t k e r : lower_bound t k = e :: r -> lex_lt (fst e) k = false.
Proof. induction t as [|x t IH]; cbn [lower_bound]; [discriminate|]. destruct (lex_lt (fst x) k) eqn:L; [exact IH|]. intros E. now injection E as <- <-. Qed.
Lemma sorted_app {A} (R : A -> A -> Prop) l1 l2 : StronglySorted R (l1 ++ l2) -> StronglySorted R l1 /\ StronglySorted R l2 /\ forall a b, In a l1 -> In b l2 -> R a b.
Proof.
  induction l1 as [|x l1 IH]; intros H; [split; [constructor|]; split; [exact H|]; intros a b []|]. cbn [app] in H. apply StronglySorted_inv in H as (H & F). destruct (IH H) as (A1 & A2 & A3). rewrite Forall_app in F. destruct F as (F1 & F2).
  split; [now constructor|]. split; [exact A2|]. intros a b [ <- |Ha] Hb; [rewrite Forall_forall in F2; auto|auto].
Qed.
Lemma sorted_cons_inv {A} (R : A -> A -> Prop) x l : StronglySorted R (x :: l) -> StronglySorted R l /\ forall y, In y l -> R x y.
Proof. intros H. apply StronglySorted_inv in H as (A1 & A2). rewrite Forall_forall in A2. auto. Qed.
Lemma pair_lt_le a b : pair_lt a b = true -> lex_lt (fst b) (fst a) = false.
Proof. unfold pair_lt. intros H. apply orb_true_iff in H as [H|H]; [now apply lex_lt_asym|]. apply andb_true_iff in H as (H & _). apply eqb_true in H. rewrite H. apply lex_lt_irrefl. Qed.
Lemma pair_lt_irrefl a : pair_lt a a = false.
Proof. unfold pair_lt. now rewrite !lex_lt_irrefl, andb_false_r. Qed.
Lemma pair_lt_trans a b c : pair_lt a b = true -> pair_lt b c = true -> pair_lt a c = true.
Proof.
  unfold pair_lt. intros H1 H2. apply orb_true_iff in H1, H2. apply orb_true_iff. destruct H1 as [H1|H1], H2 as [H2|H2]; rewrite ?andb_true_iff in *.
  - left. eapply lex_lt_trans; eassumption.
  - left. destruct H2 as (H2 & _). apply eqb_true in H2. now rewrite <- H2.
  - left. destruct H1 as (H1 & _). apply eqb_true in H1. now rewrite H1.
  - right. destruct H1 as (H1 & L1), H2 as (H2 & L2). apply eqb_true in H1, H2. rewrite H1, H2, eqb_refl. split; [reflexivity|]. eapply lex_lt_trans; eassumption.
Qed.
Lemma pair_lt_total a b : pair_lt a b = false -> a <> b -> pair_lt b a = true.
Proof.
  unfold pair_lt. intros H N. apply orb_false_iff in H as (H1 & H2). apply orb_true_iff. destruct (lex_cmp (fst a) (fst b)) as [L|[E|L]]; [congruence| |auto].
  right. rewrite <- E, eqb_refl in *. cbn [andb] in *. destruct (lex_cmp (snd a) (snd b)) as [L|[E2|L]]; [congruence| |exact L]. destruct a, b; cbn in *; congruence.
Qed.

(** *** Tables without duplicates *)
Lemma ordered_dup t : ordered t -> dup_ordered t.
Proof. induction t as [|e t IH]; intros H; [constructor|]. apply sorted_cons_inv in H as (H & F). constructor; [now apply IH|]. apply Forall_forall. intros y Hy. unfold pair_lt. now rewrite (F y Hy). Qed.
Lemma ordered_fun t k v w : ordered t -> In (k, v) t -> In (k, w) t -> v = w.
Proof.
  induction t as [|e t IH]; intros H; [intros []|]. apply sorted_cons_inv in H as (H & F). intros [A|A] [B|B]; [congruence| | |auto].
  - apply F in B. subst e. cbn in B. rewrite lex_lt_irrefl in B. discriminate.
  - apply F in A. subst e. cbn in A. rewrite lex_lt_irrefl in A. discriminate.
Qed.
(** The position that find reaches: the first record with the key. *)
Lemma find_first t k : dup_ordered t -> (find t k = [] /\ forall v, ~ In (k, v) t) \/ (exists pre v r, t = pre ++ (k, v) :: r /\ find t k = (k, v) :: r /\ forall e, In e pre -> lex_lt (fst e) k = true).
Proof.
  intros H. unfold find. destruct (lower_bound_app t k) as (pre & E & F). rewrite Forall_forall in F. destruct (lower_bound t k) as [|[k' v] r] eqn:L.
  - left. split; [reflexivity|]. intros v I. rewrite E, app_nil_r in I. apply F in I. cbn in I. rewrite lex_lt_irrefl in I. discriminate.
  - cbn [fst]. pose proof (lower_bound_head _ _ _ _ L) as Hh. cbn in Hh. destruct (eqb_spec k' k) as [ -> |N].
    + right. exists pre, v, r. auto.
    + left. split; [reflexivity|]. intros w I. rewrite E in I, H. apply in_app_or in I as [I|[I|I]].
      * apply F in I. cbn in I. rewrite lex_lt_irrefl in I. discriminate.
      * congruence.
      * apply sorted_app in H as (_ & H & _). apply sorted_cons_inv in H as (_ & H). apply H, pair_lt_le in I. cbn in I. destruct (lex_cmp k' k) as [X|[X|X]]; congruence.
Qed.
Lemma lookup_spec t k v : ordered t -> lookup t k = Some v <-> In (k, v) t.
Proof.
  intros H. unfold lookup. destruct (find_first t k (ordered_dup t H)) as [(E & N)|(pre & w & r & E & Ef & _)].
  - rewrite E. split; [discriminate|]. intros I. now apply N in I.
  - rewrite Ef. cbn [snd]. split; [intros X; injection X as ->; rewrite E; apply in_or_app; right; now left|]. intros I. f_equal. apply (ordered_fun t k); [exact H| |exact I]. rewrite E. apply in_or_app. right. now left.
Qed.
Lemma lookup_none t k : ordered t -> lookup t k = None <-> forall v, ~ In (k, v) t.
Proof.
  intros H. destruct (lookup t k) as [v|] eqn:E.
  - split; [discriminate|]. intros X. apply lookup_spec in E; [|exact H]. now apply X in E.
  - split; [|reflexivity]. intros _ v I. apply lookup_spec in I; [congruence|exact H].
Qed.
Lemma upsert_in t k v k' v' : ordered t -> In (k', v') (upsert t k v) <-> (k' = k /\ v' = v) \/ (k' <> k /\ In (k', v') t).
Proof.
  induction t as [|[k0 v0] t IH]; intros H.
  - cbn. split; [intros [E|[]]; injection E as <- <-; auto|]. intros [(-> & ->)|(_ & [])]. auto.
  - apply sorted_cons_inv in H as (H & F). cbn [upsert fst]. destruct (lex_lt k0 k) eqn:L; [|destruct (eqb_spec k0 k) as [ -> |N]].
    + cbn [In]. rewrite (IH H). split.
      * intros [E|[E|(A & B)]]; [injection E as <- <-; right; split; [intros ->; rewrite lex_lt_irrefl in L; discriminate|auto]|auto|auto].
      * intros [E|(A & [B|B])]; auto.
    + cbn [In]. split.
      * intros [E|B]; [injection E as <- <-; auto|]. right. split; [|auto]. intros ->. apply F in B. cbn in B. rewrite lex_lt_irrefl in B. discriminate.
      * intros [(-> & ->)|(A & [B|B])]; [auto|congruence|auto].
    + cbn [In]. split.
      * intros [E|[E|B]]; [injection E as <- <-; auto|injection E as <- <-; auto|]. right. split; [|auto]. intros ->. apply F in B. cbn in B. congruence.
      * intros [(-> & ->)|(A & B)]; auto.
Qed.
Lemma upsert_ordered t k v : ordered t -> ordered (upsert t k v).
Proof.
  induction t as [|[k0 v0] t IH]; intros H; [repeat constructor|]. pose proof H as H0. apply sorted_cons_inv in H as (H & F). cbn [upsert fst]. destruct (lex_lt k0 k) eqn:L; [|destruct (eqb_spec k0 k) as [ -> |N]].
  - constructor; [now apply IH|]. apply Forall_forall. intros [k' v'] I. apply upsert_in in I; [|exact H]. destruct I as [(-> & _)|(_ & I)]; [exact L|]. now apply F in I.
  - constructor; [exact H|]. apply Forall_forall. intros e He. apply (F e He).
  - assert (L2 : lex_lt k k0 = true) by (destruct (lex_cmp k k0) as [X|[X|X]]; congruence). constructor; [exact H0|]. apply Forall_forall. intros e [ <- |He]; [exact L2|]. cbn. eapply lex_lt_trans; [exact L2|]. apply (F e He).
Qed.
Lemma lookup_upsert t k v k' : ordered t -> lookup (upsert t k v) k' = if bytes_eqb k' k then Some v else lookup t k'.
Proof.
  intros H. pose proof (upsert_ordered t k v H) as H'. destruct (eqb_spec k' k) as [ -> |N].
  - apply lookup_spec; [exact H'|]. apply upsert_in; [exact H|auto].
  - destruct (lookup t k') as [w|] eqn:E.
    + apply lookup_spec; [exact H'|]. apply upsert_in; [exact H|]. right. split; [exact N|]. now apply lookup_spec.
    + apply lookup_none; [exact H'|]. intros w I. apply upsert_in in I; [|exact H]. destruct I as [(-> & _)|(_ & I)]; [congruence|]. apply lookup_none with (v := w) in E; auto.
Qed.

(** *** Tables with duplicates *)
Lemma put_dup_in t k v e : dup_ordered t -> In e (put_dup t k v) <-> e = (k, v) \/ In e t.
Proof.
  induction t as [|x t IH]; intros H; [cbn; intuition congruence|]. apply sorted_cons_inv in H as (H & F). cbn [put_dup]. destruct (pair_lt x (k, v)) eqn:L; [cbn [In]; rewrite (IH H); intuition|].
  destruct (eqb_spec (fst x) k), (eqb_spec (snd x) v); cbn [andb In]; try (intuition congruence). assert (x = (k, v)) by (destruct x; cbn in *; congruence). intuition congruence.
Qed.
Lemma put_dup_ordered t k v : dup_ordered t -> dup_ordered (put_dup t k v).
Proof.
  induction t as [|x t IH]; intros H; [repeat constructor|]. pose proof H as H0. apply sorted_cons_inv in H as (H & F). cbn [put_dup]. destruct (pair_lt x (k, v)) eqn:L.
  - constructor; [now apply IH|]. apply Forall_forall. intros e I. apply put_dup_in in I; [|exact H]. destruct I as [->|I]; [exact L|auto].
  - destruct (bytes_eqb (fst x) k && bytes_eqb (snd x) v) eqn:E; [exact H0|]. assert (N : x <> (k, v)) by (intros ->; cbn in E; rewrite !eqb_refl in E; discriminate).
    assert (L2 := pair_lt_total _ _ L N). constructor; [exact H0|]. apply Forall_forall. intros e [ <- |He]; [exact L2|]. eapply pair_lt_trans; [exact L2|auto].
Qed.
Lemma erase_at_in t e x : In x (erase_at t e) <-> x <> e /\ In x t.
Proof.
  unfold erase_at. rewrite filter_In. destruct x as [a b], e as [c d]. cbn. destruct (eqb_spec a c), (eqb_spec b d); cbn; intuition congruence.
Qed.
Lemma filter_sorted {A} (R : A -> A -> Prop) f l : StronglySorted R l -> StronglySorted R (filter f l).
Proof.
  induction l as [|x l IH]; intros H; [constructor|]. apply sorted_cons_inv in H as (H & F). cbn [filter]. destruct (f x); [|auto]. constructor; [auto|]. apply Forall_forall. intros y Hy. apply filter_In in Hy as (Hy & _). auto.
Qed.
Lemma erase_key_in t k x : In x (erase_key t k) <-> fst x <> k /\ In x t.
Proof. unfold erase_key. rewrite filter_In. destruct (eqb_spec (fst x) k); cbn; intuition congruence. Qed.

(** lower_bound_multivalue: the smallest value of the key that is not below the given one. *)
Lemma skip_values_spec t k v : dup_ordered t -> (forall e, In e t -> fst e = k \/ lex_lt k (fst e) = true) ->
  (skip_values t k v = [] /\ forall w, In (k, w) t -> lex_lt w v = true)
  \/ (exists pre w r, t = pre ++ (k, w) :: r /\ skip_values t k v = (k, w) :: r /\ lex_lt w v = false /\ forall x, In (k, x) t -> lex_lt x v = false -> x = w \/ lex_lt w x = true).
Proof.
  induction t as [|[k0 v0] t IH]; intros H K; [left; split; [reflexivity|intros w []]|]. pose proof H as H0. apply sorted_cons_inv in H as (H & F). cbn [skip_values fst snd]. destruct (eqb_spec k0 k) as [ -> |N].
  - destruct (lex_lt v0 v) eqn:L.
    + destruct (IH H (fun e He => K e (or_intror He))) as [(E & X)|(pre & w & r & E & Es & L2 & X)].
      * left. split; [exact E|]. intros w [I|I]; [injection I as <-; exact L|auto].
      * right. exists ((k, v0) :: pre), w, r. split; [now rewrite E|]. split; [exact Es|]. split; [exact L2|]. intros x [I|I] Lx; [injection I as <-; congruence|auto].
    + right. exists [], v0, t. split; [reflexivity|]. split; [reflexivity|]. split; [exact L|]. intros x [I|I] _; [injection I as <-; auto|]. right. apply F in I. unfold pair_lt in I. cbn in I. rewrite lex_lt_irrefl, eqb_refl in I. exact I.
  - left. split; [reflexivity|]. intros w [I|I]; [congruence|]. exfalso. apply F, pair_lt_le in I. cbn in I. destruct (K _ (or_introl eq_refl)) as [X|X]; cbn in X; congruence.
Qed.
Lemma lower_bound_multivalue_spec t k v : dup_ordered t ->
  (lower_bound_multivalue t k v = [] /\ forall w, In (k, w) t -> lex_lt w v = true)
  \/ (exists pre w r, t = pre ++ (k, w) :: r /\ lower_bound_multivalue t k v = (k, w) :: r /\ lex_lt w v = false /\ forall x, In (k, x) t -> lex_lt x v = false -> x = w \/ lex_lt w x = true).
Proof.
  intros H. unfold lower_bound_multivalue. destruct (find_first t k H) as [(E & N)|(pre & w & r & E & Ef & P)].
  - rewrite E. left. split; [reflexivity|]. intros w I. now apply N in I.
  - rewrite Ef. pose proof H as H0. rewrite E in H. apply sorted_app in H as (_ & H & _). assert (K : forall e, In e ((k, w) :: r) -> fst e = k \/ lex_lt k (fst e) = true).
    { intros e [ <- |He]; [auto|]. apply sorted_cons_inv in H as (_ & F). apply F, pair_lt_le in He. cbn in He. destruct (lex_cmp (fst e) k) as [X|[X|X]]; [congruence|auto|auto]. }
    assert (In1 : forall x, In (k, x) t -> In (k, x) ((k, w) :: r)).
    { intros x I. rewrite E in I. apply in_app_or in I as [I|I]; [|exact I]. apply P in I. cbn in I. rewrite lex_lt_irrefl in I. discriminate. }
    destruct (skip_values_spec _ k v H K) as [(Es & X)|(pre2 & w2 & r2 & E2 & Es & L & X)].
    + left. split; [exact Es|]. auto.
    + right. exists (pre ++ pre2), w2, r2. split; [rewrite E, E2, app_assoc; reflexivity|]. split; [exact Es|]. split; [exact L|]. auto.
Qed.
