(** The trie loader: what the builder is fed with. *)
From Coq Require Import Sorting.Sorted.
From Verif Require Import Base BaseFacts RlpSpec RlpModel RlpProofs UtilModel UtilProofs TypesModel TypesSpec TypesProofs TypesLemmas TrieModel TrieSpec TrieProofs2 TrieProofs3 TrieProofs5 TrieLemmas TrieNode DbTable DbModel DbSpec DbProofs EtlModel StateRootModel StateRootSpec.

Lemma trie_unique content o o' : is_trie content o -> is_trie content o' -> o = o'.
Proof.
  destruct o as [t|], o' as [u|]; cbn [is_trie]; intros H H'; [|exfalso|exfalso|reflexivity].
  - destruct H as (C & G), H' as (C' & G'). f_equal. apply canonical_unique; [exact C|exact C'|]. intros k v. rewrite G, G'. reflexivity.
  - destruct H as (C & G). destruct (canonical_inhabited t C) as (k & v & E). apply G in E as (b & _ & E). now apply H' in E.
  - destruct H' as (C & G). destruct (canonical_inhabited u C) as (k & v & E). apply G in E as (b & _ & E). now apply H in E.
Qed.
Lemma root_unique keccak content r r' : is_root keccak content r -> is_root keccak content r' -> r = r'.
Proof. intros (o & H & ->) (o' & H' & ->). now rewrite (trie_unique content o o' H H'). Qed.
Lemma trie_ext c c' o : (forall k v, c k v <-> c' k v) -> is_trie c o -> is_trie c' o.
Proof.
  intros E. destruct o as [t|]; cbn [is_trie].
  - intros (C & G). split; [exact C|]. intros p v. rewrite G. split; intros (k & -> & H); exists k; (split; [reflexivity|]); now apply E.
  - intros H k v X. apply (H k v). now apply E.
Qed.

(** ** Sorted entries with keys of 32 bytes *)
Definition hashed_entries (es : list (bytes * bytes)) : Prop :=
  StronglySorted (fun a b => lex_lt (fst a) (fst b) = true) es /\ Forall (fun e => (length (fst e) = 32%nat /\ wf_bytes (fst e)) /\ blen (snd e) < 2 ^ 62) es.
Lemma sorted_increasing es : StronglySorted (fun a b : bytes * bytes => lex_lt (fst a) (fst b) = true) es -> increasing (map fst es).
Proof.
  induction es as [|a es IH]; intros H; [exact I|]. apply sorted_cons_inv in H as (H & F). destruct es as [|b es]; [exact I|]. cbn [map increasing]. split; [apply F; now left|]. now apply IH.
Qed.
Lemma sorted_keys es i j a b : StronglySorted (fun a b : bytes * bytes => lex_lt (fst a) (fst b) = true) es -> nth_error (map fst es) i = Some a -> nth_error (map fst es) j = Some b -> a = b -> i = j.
Proof.
  revert i j. induction es as [|e es IH]; intros i j H Ha Hb ->; [destruct i; discriminate|]. apply sorted_cons_inv in H as (H & F).
  assert (X : forall n, nth_error (map fst es) n = Some b -> lex_lt (fst e) b = true).
  { intros n E. apply nth_error_In, in_map_iff in E as (x & <- & Hx). now apply F. }
  destruct i as [|i], j as [|j]; cbn [map nth_error] in Ha, Hb; [reflexivity| | |f_equal; eapply IH; eauto].
  - injection Ha as Ha. apply X in Hb. rewrite Ha, lex_lt_irrefl in Hb. discriminate.
  - injection Hb as Hb. apply X in Ha. rewrite Hb, lex_lt_irrefl in Ha. discriminate.
Qed.
Lemma hashed_valid es : hashed_entries es -> valid_entries es.
Proof.
  intros (O & F). rewrite Forall_forall in F. constructor.
  - apply Forall_forall. intros e He. destruct (F e He) as ((L & W) & _). split; [exact W|]. intros E. apply (f_equal (@length N)) in E. pose proof (eq_trans (eq_sym L) E) as X. discriminate X.
  - apply Forall_forall. intros e He. destruct (F e He) as ((L & _) & V). split; [|exact V]. pose proof (f_equal N.of_nat L) as X. unfold blen. eapply N.le_lt_trans; [apply N.eq_le_incl; exact X|reflexivity].
  - now apply sorted_increasing.
  - intros i j a b Ha Hb Hij (c & E). apply Hij. assert (La : length a = 32%nat) by (apply nth_error_In, in_map_iff in Ha as (x & <- & Hx); apply (F x Hx)). assert (Lb : length b = 32%nat) by (apply nth_error_In, in_map_iff in Hb as (x & <- & Hx); apply (F x Hx)).
    rewrite E, app_length in Lb. destruct c; [|cbn in Lb; lia]. rewrite app_nil_r in E. eapply sorted_keys; eauto.
Qed.
Definition big_entries (es : list (bytes * bytes)) : Prop :=
  (forall k v, In (k, v) es -> 32 <= blen v) \/ (forall k1 v1 k2 v2, In (k1, v1) es -> In (k2, v2) es -> firstn 28 k1 = firstn 28 k2 -> k1 = k2).
Lemma holds_content es content t : (forall k v, In (k, v) es <-> content k v) -> holds t es <-> forall p v, get t p = Some v <-> exists k, p = nibbles k /\ content k v.
Proof.
  intros E. split.
  - intros (H1 & H2) p v. split.
    + intros G. apply H2 in G as (k & -> & I). exists k. split; [reflexivity|]. now apply E.
    + intros (k & -> & I). apply H1. now apply E.
  - intros H. split.
    + intros k v I. apply H. exists k. split; [reflexivity|]. now apply E.
    + intros p v G. apply H in G as (k & -> & I). exists k. split; [reflexivity|]. now apply E.
Qed.
Lemma hashed_build keccak es content : hash_32 keccak -> hashed_entries es -> (forall k v, In (k, v) es <-> content k v) ->
  exists o, is_trie content o /\ build keccak false es = Some (root_of keccak o, [])
  /\ (big_entries es -> exists out, build keccak true es = Some (root_of keccak o, out) /\ map as_report out = reports_of keccak o /\ Forall small_masks out).
Proof.
  intros Hk H E. pose proof (hashed_valid es H) as V. destruct es as [|e es].
  - exists None. split; [intros k v X; now apply E in X|]. split; [reflexivity|]. intros _. exists []. split; [reflexivity|]. split; [reflexivity|constructor].
  - assert (N : e :: es <> []) by discriminate. destruct (builder_root keccak (e :: es) Hk V N) as (t & C & Ht & B). exists (Some t). split; [split; [exact C|]; now apply (holds_content (e :: es))|]. split; [exact B|].
    intros Big. apply (builder_reports keccak (e :: es) t Hk V C Ht). apply (reports_defined keccak (e :: es) t Hk V C Ht). destruct Big as [Big|Big]; [now left|right]. split; [|exact Big].
    intros k v I. destruct H as (_ & F). rewrite Forall_forall in F. apply (F _ I).
Qed.

(** ** The storage of one account *)
Definition split_value (v : bytes) : bytes * bytes := (firstn 32 v, encode_bytes (skipn 32 v)).
Lemma storage_loop_spec keccak (k : bytes) (vs : list bytes) (r : table) s : (forall v, In v vs -> length v >= 32)%nat -> (forall e, In e r -> fst e <> k) -> (vs = [] -> r = []) ->
  storage_loop keccak (map (pair k) vs ++ r) s = match add_all keccak true (map split_value vs) s with Some s => Done s | None => Undefined end.
Proof.
  revert s. induction vs as [|v vs IH]; intros s Lv Hr Hn; [rewrite Hn by reflexivity; reflexivity|]. cbn [map app storage_loop fst snd]. destruct (Nat.ltb_spec (length v) 32) as [X|_]; [specialize (Lv v (or_introl eq_refl)); lia|].
  cbn [add_all]. change (split_value v) with (firstn 32 v, encode_bytes (skipn 32 v)). cbn iota beta.
  destruct (add keccak true (firstn 32 v) (encode_bytes (skipn 32 v)) s) as [s1|]; [|reflexivity]. destruct vs as [|w vs].
  - cbn [map app]. destruct r as [|e r]; [reflexivity|]. assert (X : bytes_eqb (fst e) k = false) by (apply eqb_false; exact (Hr e (or_introl eq_refl))). cbn [add_all]. now rewrite X.
  - cbn [map app fst]. rewrite eqb_refl. apply (IH s1 (fun x Hx => Lv x (or_intror Hx)) Hr). discriminate.
Qed.
(** The records of a key in a table with duplicates. *)
Lemma split_key (l : table) k : dup_ordered l -> (forall e, In e l -> fst e = k \/ lex_lt k (fst e) = true) ->
  exists vs r, l = map (pair k) vs ++ r /\ (forall e, In e r -> fst e <> k) /\ StronglySorted (fun a b => lex_lt a b = true) vs.
Proof.
  induction l as [|[k0 v0] l IH]; intros O H; [exists [], []; split; [reflexivity|]; split; [intros e []|constructor]|]. apply sorted_cons_inv in O as (O & F). destruct (H _ (or_introl eq_refl)) as [E|L]; cbn [fst] in *.
  - subst k0. destruct (IH O (fun e He => H e (or_intror He))) as (vs & r & -> & Hr & Hs). exists (v0 :: vs), r. split; [reflexivity|]. split; [exact Hr|]. constructor; [exact Hs|]. apply Forall_forall. intros w Hw.
    assert (X : In (k, w) (map (pair k) vs ++ r)) by (apply in_or_app; left; now apply in_map). apply F in X. unfold pair_lt in X. cbn [fst snd] in X. rewrite lex_lt_irrefl, eqb_refl in X. exact X.
  - exists [], ((k0, v0) :: l). split; [reflexivity|]. split; [|constructor]. intros e [ <- |He] X; [cbn [fst] in X; rewrite X, lex_lt_irrefl in L; discriminate|]. apply F, pair_lt_le in He. cbn [fst] in He. congruence.
Qed.
Lemma values_of (t : table) k : dup_ordered t -> (forall v, In (k, v) t -> v <> []) ->
  exists vs r, lower_bound_multivalue t k [0] = map (pair k) vs ++ r /\ (vs = [] -> r = []) /\ (forall e, In e r -> fst e <> k) /\ StronglySorted (fun a b => lex_lt a b = true) vs /\ (forall v, In v vs <-> In (k, v) t).
Proof.
  intros O N. unfold lower_bound_multivalue. destruct (find_first t k O) as [(E & Hn)|(pre & v & r & E & Ef & Hp)].
  - exists [], []. rewrite E. split; [reflexivity|]. split; [reflexivity|]. split; [intros e []|]. split; [constructor|]. intros v. split; [intros []|]. intros X. now apply Hn in X.
  - rewrite Ef. cbn [skip_values fst snd]. rewrite eqb_refl. assert (Z : lex_lt v [0] = false).
    { assert (Hv : v <> []) by (apply N; rewrite E; apply in_or_app; right; now left). destruct v as [|b v]; [congruence|]. cbn [lex_lt]. destruct (N.ltb_spec b 0); [lia|]. destruct (0 <? b); [reflexivity|]. now destruct v. }
    rewrite Z. pose proof O as O'. rewrite E in O'. apply sorted_app in O' as (_ & O2 & Hx). assert (Hge : forall e, In e ((k, v) :: r) -> fst e = k \/ lex_lt k (fst e) = true).
    { intros e [ <- |He]; [now left|]. apply sorted_cons_inv in O2 as (_ & F). apply F, pair_lt_le in He. cbn [fst] in He. destruct (lex_cmp (fst e) k) as [X|[X|X]]; [congruence|auto|auto]. }
    destruct (split_key ((k, v) :: r) k O2 Hge) as (vs & r' & E' & Hr & Hs). exists vs, r'. split; [exact E'|]. split; [|split; [exact Hr|split; [exact Hs|]]].
    + intros ->. cbn [map app] in E'. exfalso. apply (Hr (k, v)); [rewrite <- E'; now left|reflexivity].
    + intros w. split.
      * intros Hw. rewrite E, E'. apply in_or_app. right. apply in_or_app. left. now apply in_map.
      * intros I. rewrite E, E' in I. apply in_app_or in I as [I|I]; [apply Hp in I; cbn [fst] in I; rewrite lex_lt_irrefl in I; discriminate|]. apply in_app_or in I as [I|I]; [|exfalso; apply (Hr _ I); reflexivity]. apply in_map_iff in I as (x & X & I). injection X as ->. exact I.
Qed.
