(** Proofs about the indexing stages. *)
From Coq Require Import Permutation Sorting.Sorted.
From stdpp Require Import gmap.
From Verif Require Import Base BaseFacts DbTable DbModel DbSpec DbProofs EtlModel EtlSpec EtlProofs EtlLemmas UnwindProofs HashStateModel HashStateProofs HashStateProofs2 BufferModel BufferProofs7 IndexModel IndexSpec.

(** ** Maps of bitmaps *)
Lemma not_empty (b : bitmap) n : n ∈ b -> b <> ∅.
Proof. intros H ->. now apply not_elem_of_empty in H. Qed.
Definition in_maps (m : bitmaps) (k : bytes) (n : N) : Prop := exists b, In (k, b) m /\ n ∈ b.
Lemma bm_add_in m k n k' n' : in_maps (bm_add m k n) k' n' <-> in_maps m k' n' \/ (k' = k /\ n' = n).
Proof.
  unfold in_maps. induction m as [|[k0 b0] m IH].
  - cbn [bm_add]. split.
    + intros (b & [E|[]] & Hb). apply pair_equal_spec in E as ( <- & <- ). right. split; [reflexivity|]. now apply elem_of_singleton in Hb.
    + intros [(b & [] & _)|( -> & -> )]. exists {[n]}. split; [now left|]. now apply elem_of_singleton.
  - cbn [bm_add]. destruct (eqb_spec k0 k) as [ -> |N].
    + split.
      * intros (b & [E|I] & Hb).
        -- apply pair_equal_spec in E as ( <- & <- ). apply elem_of_union in Hb as [Hb|Hb]; [apply elem_of_singleton in Hb; auto|]. left. exists b0. split; [now left|exact Hb].
        -- left. exists b. split; [now right|exact Hb].
      * intros [(b & [E|I] & Hb)|( -> & -> )].
        -- apply pair_equal_spec in E as ( <- & <- ). exists ({[n]} ∪ b0). split; [now left|]. apply elem_of_union. now right.
        -- exists b. split; [now right|exact Hb].
        -- exists ({[n]} ∪ b0). split; [now left|]. apply elem_of_union. left. now apply elem_of_singleton.
    + split.
      * intros (b & [E|I] & Hb).
        -- left. exists b. split; [now left|exact Hb].
        -- destruct (proj1 IH) as [(b' & I' & Hb')|R]; [exists b; auto| |auto]. left. exists b'. split; [now right|exact Hb'].
      * intros [(b & [E|I] & Hb)|R].
        -- exists b. split; [now left|exact Hb].
        -- destruct (proj2 IH) as (b' & I' & Hb'); [left; exists b; auto|]. exists b'. split; [now right|exact Hb'].
        -- destruct (proj2 IH) as (b' & I' & Hb'); [now right|]. exists b'. split; [now right|exact Hb'].
Qed.
Definition good_maps (m : bitmaps) : Prop := Forall (fun e => length (fst e) = 20%nat /\ snd e <> ∅) m.
Lemma bm_add_good m k n : length k = 20%nat -> good_maps m -> good_maps (bm_add m k n).
Proof.
  intros Lk. unfold good_maps. induction m as [|[k0 b0] m IH]; intros G.
  - constructor; [|constructor]. cbn [fst snd]. split; [exact Lk|]. apply (not_empty _ n). now apply elem_of_singleton.
  - apply Forall_cons_iff in G as ((G1 & G2) & G). cbn [bm_add]. destruct (bytes_eqb k0 k).
    + constructor; [|exact G]. cbn [fst snd]. split; [exact G1|]. apply (not_empty _ n). apply elem_of_union. left. now apply elem_of_singleton.
    + constructor; [now split|]. now apply IH.
Qed.
Lemma bm_add_length m k n : (length (bm_add m k n) <= S (length m))%nat.
Proof. induction m as [|[k0 b0] m IH]; cbn [bm_add length]; [lia|]. destruct (bytes_eqb k0 k); cbn [length]; lia. Qed.

Section History.
  Variable pick : list (entry * nat) -> nat.
  Variable walk : bitmaps -> bitmaps.
  Variable size_in_bytes : bitmap -> N.
  Variable bm_write : bitmap -> bytes.
  Variable bm_read : bytes -> bitmap.
  Hypothesis Pick : least_first pick.
  Hypothesis Walk : some_order walk.
  Hypothesis Fa : faithful size_in_bytes bm_write bm_read.

  (** Entries to be loaded: an address and a bitmap that is not empty *)
  Definition good_entries (l : list entry) : Prop := Forall (fun e => length (fst e) = 20%nat /\ exists b, snd e = bm_write b /\ b <> ∅) l.
  Definition in_entries (l : list entry) (k : bytes) (n : N) : Prop := exists v, In (k, v) l /\ n ∈ bm_read v.

  Lemma flush_in m k n : in_entries (flush_bitmaps walk bm_write m) k n <-> in_maps m k n.
  Proof.
    unfold in_entries, in_maps, flush_bitmaps. split.
    - intros (v & I & Hn). apply in_map_iff in I as ([k' b] & E & I). cbn [fst snd] in E. apply pair_equal_spec in E as ( <- & <- ). exists b. split; [apply (Permutation_in _ (Walk m)); exact I|]. now rewrite (fa_read _ _ _ Fa) in Hn.
    - intros (b & I & Hn). exists (bm_write b). split; [|now rewrite (fa_read _ _ _ Fa)]. apply in_map_iff. exists (k, b). split; [reflexivity|]. apply (Permutation_in _ (Permutation_sym (Walk m))). exact I.
  Qed.
  Lemma flush_good m : good_maps m -> good_entries (flush_bitmaps walk bm_write m).
  Proof.
    intros G. unfold good_entries, flush_bitmaps. apply Forall_forall. intros e I. apply in_map_iff in I as ([k b] & <- & I). apply (Permutation_in _ (Walk m)) in I. unfold good_maps in G. rewrite Forall_forall in G. destruct (G _ I) as (G1 & G2). cbn [fst snd] in *. split; [exact G1|]. exists b. auto.
  Qed.
  Lemma flush_length m : length (flush_bitmaps walk bm_write m) = length m.
  Proof. unfold flush_bitmaps. rewrite map_length. apply Permutation_length, Walk. Qed.
  Lemma in_entries_app l1 l2 k n : in_entries (l1 ++ l2) k n <-> in_entries l1 k n \/ in_entries l2 k n.
  Proof.
    unfold in_entries. split.
    - intros (v & I & Hn). apply in_app_or in I as [I|I]; [left|right]; exists v; auto.
    - intros [(v & I & Hn)|(v & I & Hn)]; exists v; (split; [apply in_or_app|exact Hn]); auto.
  Qed.

  Definition rec_shape (p : table) : Prop := forall k v, In (k, v) p -> exists n a s, n < 2 ^ 32 /\ k = be_fixed 8 n /\ length a = 20%nat /\ v = a ++ s.
  Definition last_block (p : table) (n : N) : N := match list.last p with Some e => be_to_N (firstn 8 (fst e)) | None => n end.
  Lemma extract_ok p : forall m space n0, rec_shape p -> good_maps m ->
    exists es, extract_history walk bm_write false p m space n0 = Done (es, last_block p n0) /\ good_entries es
      /\ (length es <= length m + length p)%nat
      /\ forall k n, length k = 20%nat -> in_entries es k n <-> in_maps m k n \/ exists s, n < 2 ^ 32 /\ In (be_fixed 8 n, k ++ s) p.
  Proof.
    induction p as [|[key v] p IH]; intros m space n0 Sh G.
    - cbn [extract_history]. eexists. split; [reflexivity|]. split; [now apply flush_good|]. split; [rewrite flush_length; cbn; lia|]. intros k n Lk. rewrite flush_in. split; [auto|]. intros [X|(s & _ & [])]. exact X.
    - destruct (Sh key v) as (n1 & a & s & Hn1 & -> & La & -> ); [now left|]. cbn [extract_history]. unfold composite_key. rewrite app_length, La. destruct (Nat.ltb_spec (20 + length s) 20) as [X|_]; [lia|]. cbn [obind]. destruct (parts_at a s 20 La) as (-> & _).
      unfold load_big_u64. rewrite be_fixed_length. destruct (Nat.ltb_spec 8 8) as [X|_]; [lia|]. cbn [obind].
      assert (E8 : be_to_N (firstn 8 (be_fixed 8 n1)) = n1) by (rewrite firstn_all2 by (rewrite be_fixed_length; lia); apply be_to_N_be_fixed_small; lia). rewrite E8.
      assert (Sh' : rec_shape p) by (intros k' v' I'; apply (Sh k' v'); now right).
      assert (Lb : last_block ((be_fixed 8 n1, a ++ s) :: p) n0 = last_block p n1) by (unfold last_block; rewrite last_cons; destruct (list.last p) as [e0|]; [reflexivity|exact E8]).
      assert (G' := bm_add_good m a n1 La G). assert (Lm := bm_add_length m a n1).
      assert (Step : forall k n, length k = 20%nat -> (in_maps (bm_add m a n1) k n \/ exists s', n < 2 ^ 32 /\ In (be_fixed 8 n, k ++ s') p) <-> (in_maps m k n \/ exists s', n < 2 ^ 32 /\ In (be_fixed 8 n, k ++ s') ((be_fixed 8 n1, a ++ s) :: p))).
      { intros k n Lk. rewrite bm_add_in. split.
        - intros [[X|( -> & -> )]|(s' & Hn & I)]; [auto|right; exists s; split; [exact Hn1|now left]|right; exists s'; split; [exact Hn|now right]].
        - intros [X|(s' & Hn & [E|I])]; [auto| |right; exists s'; auto]. apply pair_equal_spec in E as (E1 & E2). apply be8_inj in E1; [|lia|lia]. apply app_inj_1 in E2 as (E2 & _); [|congruence]. subst. auto. }
      destruct (256 * 2 ^ 20 <? _).
      + destruct (IH [] 0 n1 Sh' ltac:(constructor)) as (es & Ee & Ge & Le & Ie). rewrite Ee. cbn [obind]. exists (flush_bitmaps walk bm_write (bm_add m a n1) ++ es). split; [exact (f_equal (fun x => Done (flush_bitmaps walk bm_write (bm_add m a n1) ++ es, x)) (eq_sym Lb))|]. split; [apply Forall_app; split; [now apply flush_good|exact Ge]|]. split; [rewrite app_length, flush_length; cbn [length] in *; lia|].
        intros k n Lk. rewrite in_entries_app, flush_in, (Ie k n Lk), <- (Step k n Lk). split; [|tauto]. intros [X|[(b & [] & _)|X]]; auto.
      + destruct (IH (bm_add m a n1) (space + 8) n1 Sh' G') as (es & Ee & Ge & Le & Ie). rewrite Ee. exists es. split; [exact (f_equal (fun x => Done (es, x)) (eq_sym Lb))|]. split; [exact Ge|]. split; [cbn [length]; lia|]. intros k n Lk. rewrite (Ie k n Lk). now apply Step.
  Qed.

  (** ** Loading *)
  Definition ff (k : bytes) : bytes := open_chunk k.
  Definition chunk_of (t : table) (k : bytes) : bitmap := match lookup t (ff k) with Some v => bm_read v | None => ∅ end.
  Lemma chunks_one fl t k b : b <> ∅ -> size_in_bytes b <= 1950 -> (forall n, n ∈ b -> n < 2 ^ 32) -> forall fuel, put_chunks size_in_bytes bm_write (S (S fuel)) 8 fl t k b = cursor_put fl t (ff k) (bm_write b).
  Proof.
    intros Nb Sb Bb fuel. cbn [put_chunks]. destruct (decide (b = ∅)) as [X|_]; [contradiction|]. destruct (cut_left_spec size_in_bytes b kBitmapChunkLimit Nb Bb) as (mn & mx & _ & _ & _ & E). rewrite E.
    destruct (N.leb_spec (size_in_bytes b) kBitmapChunkLimit) as [_|X]; [|unfold kBitmapChunkLimit in X; lia]. cbn [obind]. destruct (decide ((∅ : bitmap) = ∅)) as [_|X]; [|congruence].
    change (2 ^ (8 * N.of_nat 8) - 1) with (2 ^ 64 - 1). unfold ff, open_chunk. destruct (cursor_put fl t (k ++ be_fixed 8 (2 ^ 64 - 1)) (bm_write b)); reflexivity.
  Qed.
  Lemma size_pos (b : bitmap) : b <> ∅ -> exists m, size b = S m.
  Proof. intros Nb. destruct (size b) eqn:E; [|eauto]. exfalso. apply Nb. apply size_empty_inv in E. now apply leibniz_equiv in E. Qed.
  Lemma load_index_eq fl t k b : b <> ∅ -> size_in_bytes (b ∪ chunk_of t k) <= 1950 -> (forall n, n ∈ b ∪ chunk_of t k -> n < 2 ^ 32) ->
    load_index size_in_bytes bm_write bm_read 8 fl t (k, bm_write b)
    = cursor_put (match lookup t (ff k) with Some _ => MDBX_UPSERT | None => fl end) t (ff k) (bm_write (b ∪ chunk_of t k)).
  Proof.
    intros Nb. unfold load_index, chunk_of. cbn [fst snd]. rewrite (fa_read _ _ _ Fa). change (2 ^ (8 * N.of_nat 8) - 1) with (2 ^ 64 - 1). change (k ++ be_fixed 8 (2 ^ 64 - 1)) with (ff k).
    destruct (lookup t (ff k)) as [v|]; intros Sb Bb.
    - assert (Nu : b ∪ bm_read v <> ∅) by (intros E; apply Nb; apply set_eq; intros x; split; [intros Hx; rewrite <- E; apply elem_of_union; now left|intros Hx; now apply not_elem_of_empty in Hx]).
      destruct (size_pos _ Nu) as (m & ->). now apply chunks_one.
    - assert (Eu : b ∪ ∅ = b) by (apply set_eq; intros x; rewrite elem_of_union; split; [intros [X|X]; [exact X|now apply not_elem_of_empty in X]|auto]). rewrite Eu in *. destruct (size_pos _ Nb) as (m & ->). now apply chunks_one.
  Qed.
  Lemma append_upsert (t : table) k v : (forall e, In e t -> lex_lt (fst e) k = true) -> append t k v = Done (upsert t k v).
  Proof.
    intros F. rewrite append_spec. assert (U : upsert t k v = t ++ [(k, v)]).
    { clear - F. induction t as [|e t IH]; [reflexivity|]. cbn [upsert]. rewrite (F e) by now left. rewrite IH by (intros x Hx; apply F; now right). now destruct e. }
    rewrite U. destruct t as [|e t] using rev_ind; [reflexivity|]. rewrite rev_app_distr. cbn [rev app]. destruct e as [ke ve]. cbn [fst]. assert (X : lex_lt ke k = true) by (apply (F (ke, ve)); apply in_or_app; right; now left). now rewrite X.
  Qed.
  Lemma ff_inj a b : ff a = ff b -> a = b.
  Proof. unfold ff, open_chunk. apply app_inv_tail. Qed.
  Definition indexed_in (t : table) (a : bytes) (n : N) : Prop := exists v, In (ff a, v) t /\ n ∈ bm_read v.
  Lemma chunk_of_in t a n : ordered t -> n ∈ chunk_of t a <-> indexed_in t a n.
  Proof.
    intros O. unfold chunk_of, indexed_in. destruct (lookup t (ff a)) as [v|] eqn:E.
    - apply lookup_spec in E; [|exact O]. split; [intros H; exists v; auto|]. intros (w & I & H). now rewrite (ordered_fun t _ _ _ O E I).
    - split; [intros H; now apply not_elem_of_empty in H|]. intros (w & I & _). exfalso. revert w I. now apply (lookup_none t (ff a) O).
  Qed.
  (** [allowed]: the blocks that the chunks of an account may name *)
  Lemma load_indexes_ok (allowed : bytes -> N -> Prop) fl l : forall t, ordered t -> in_order l -> good_entries l ->
    (fl = MDBX_APPEND -> forall e x, In e t -> In x l -> lex_lt (fst e) (ff (fst x)) = true \/ fst e = ff (fst x)) ->
    (forall a n, length a = 20%nat -> indexed_in t a n \/ in_entries l a n -> allowed a n) ->
    (forall a (b : bitmap), length a = 20%nat -> (forall n, n ∈ b -> allowed a n) -> size_in_bytes b <= 1950 /\ forall n, n ∈ b -> n < 2 ^ 32) ->
    exists t', load_indexes size_in_bytes bm_write bm_read 8 fl t l = Done t' /\ ordered t'
      /\ (forall a n, length a = 20%nat -> indexed_in t' a n <-> indexed_in t a n \/ in_entries l a n)
      /\ (forall k v, (forall a, length a = 20%nat -> k <> ff a) -> In (k, v) t' <-> In (k, v) t).
  Proof.
    induction l as [|[k v] l IH]; intros t O So G Ap Al Sm.
    - exists t. split; [reflexivity|]. split; [exact O|]. split; [|tauto]. intros a n _. split; [auto|]. intros [X|(v & [] & _)]. exact X.
    - apply Forall_cons_iff in G as ((Lk & b & Ev & Nb) & G). cbn [fst snd] in Lk, Ev. subst v. apply StronglySorted_inv in So as (So & Fo). rewrite Forall_forall in Fo.
      assert (Au : forall n, n ∈ b ∪ chunk_of t k -> allowed k n).
      { intros n Hn. apply (Al k n Lk). apply elem_of_union in Hn as [Hn|Hn]; [right; exists (bm_write b); split; [now left|now rewrite (fa_read _ _ _ Fa)]|left; now apply chunk_of_in]. }
      destruct (Sm k _ Lk Au) as (Sb & Bb). cbn [load_indexes]. rewrite (load_index_eq fl t k b Nb Sb Bb).
      set (u := bm_write (b ∪ chunk_of t k)).
      assert (E : cursor_put (match lookup t (ff k) with Some _ => MDBX_UPSERT | None => fl end) t (ff k) u = Done (upsert t (ff k) u)).
      { destruct (lookup t (ff k)) as [w|] eqn:L; [reflexivity|]. destruct fl; [reflexivity|]. cbn [cursor_put]. apply append_upsert. intros e I. destruct (Ap eq_refl e (k, bm_write b) I) as [X|X]; [now left|exact X|]. cbn [fst] in X. exfalso. destruct e as [ke ve]. cbn [fst] in X. subst ke. exact (proj1 (lookup_none t (ff k) O) L ve I). }
      rewrite E. cbn [obind]. assert (O' := upsert_ordered t (ff k) u O).
      assert (Ix : forall a n, length a = 20%nat -> indexed_in (upsert t (ff k) u) a n <-> indexed_in t a n \/ (a = k /\ n ∈ b)).
      { intros a n La. unfold indexed_in at 1. split.
        - intros (w & I & Hn). apply upsert_in in I; [|exact O]. destruct I as [(Ea & -> )|(Na & I)]; [|left; exists w; auto]. apply ff_inj in Ea as ->. unfold u in Hn. rewrite (fa_read _ _ _ Fa) in Hn. apply elem_of_union in Hn as [Hn|Hn]; [auto|]. left. now apply chunk_of_in.
        - intros H. destruct (bytes_dec a k) as [ -> |Na].
          + exists u. split; [apply upsert_in; [exact O|]; auto|]. unfold u. rewrite (fa_read _ _ _ Fa). apply elem_of_union. destruct H as [H|(_ & H)]; [right; now apply chunk_of_in|now left].
          + destruct H as [(w & I & Hn)|( -> & _)]; [|congruence]. exists w. split; [|exact Hn]. apply upsert_in; [exact O|]. right. split; [intros X; now apply ff_inj in X|exact I]. }
      assert (El : forall a n, in_entries ((k, bm_write b) :: l) a n <-> (a = k /\ n ∈ b) \/ in_entries l a n).
      { intros a n. unfold in_entries. split.
        - intros (w & [X|I] & Hn); [|right; exists w; auto]. apply pair_equal_spec in X as ( <- & <- ). rewrite (fa_read _ _ _ Fa) in Hn. auto.
        - intros [( -> & Hn)|(w & I & Hn)]; [exists (bm_write b); split; [now left|now rewrite (fa_read _ _ _ Fa)]|]. exists w. split; [now right|exact Hn]. }
      destruct (IH (upsert t (ff k) u) O' So G) as (t' & Et & Ot & It & Kt).
      + intros Ea e x I Ix'. destruct e as [ke ve]. apply upsert_in in I; [|exact O]. cbn [fst].
        destruct I as [( -> & _)|(_ & I)].
        * specialize (Fo x Ix'). destruct x as [kx vx]. cbn [fst] in *. assert (Lx : length kx = 20%nat) by (unfold good_entries in G; rewrite Forall_forall in G; exact (proj1 (G _ Ix'))).
          unfold ff, open_chunk. destruct (bytes_dec k kx) as [ -> |Nk]; [now right|]. left. apply lex_app; [congruence|]. left. destruct (lex_cmp k kx) as [X|[X|X]]; [exact X|contradiction|]. unfold pair_lt in Fo. cbn [fst] in Fo. rewrite X in Fo. discriminate.
        * apply (Ap Ea (ke, ve) x I). now right.
      + intros a n La H. apply (Al a n La). rewrite El. rewrite (Ix a n La) in H. tauto.
      + exact Sm.
      + exists t'. split; [exact Et|]. split; [exact Ot|]. split.
        * intros a n La. rewrite (It a n La), (Ix a n La), El. tauto.
        * intros k' v' Hk'. rewrite (Kt k' v' Hk'), upsert_in by exact O. split; [intros [( -> & _)|(_ & I)]; [exfalso; now apply (Hk' k)|exact I]|]. intros I. right. split; [now apply Hk'|exact I].
  Qed.
End History.
