(** The farm: what is stored at the end. *)
From Coq Require Import Strings.String Permutation Sorting.Sorted.
From Verif Require Import Base BaseFacts TxModel BlockModel ChainModel DbTable DbModel DbSpec DbProofs DbBlockProofs EtlModel EtlSpec EtlProofs EtlLemmas UnwindProofs UnwindProofs2 HashStateModel HashStateProofs FarmModel FarmSpec FarmProofs FarmProofs2 FarmLemmas.
Open Scope list_scope.
Open Scope N_scope.

Lemma known_senders : is_known_stage kSendersKey = true.
Proof. vm_compute. reflexivity. Qed.
Lemma sorted_join {A} (R : A -> A -> Prop) l1 l2 : StronglySorted R l1 -> StronglySorted R l2 -> (forall a b, In a l1 -> In b l2 -> R a b) -> StronglySorted R (l1 ++ l2).
Proof.
  induction l1 as [|x l1 IH]; intros S1 S2 C; [exact S2|]. apply sorted_cons_inv in S1 as (S1 & F). cbn [app]. constructor; [apply IH; auto; intros a b Ia Ib; apply C; [now right|exact Ib]|]. apply Forall_forall. intros y I. apply in_app_or in I as [I|I]; [now apply F|]. apply C; [now left|exact I].
Qed.
Lemma ordered_in_order l : ordered l -> in_order l.
Proof.
  induction 1 as [|x l S IH F]; [constructor|]. constructor; [exact IH|]. apply Forall_forall. intros y I. rewrite Forall_forall in F. specialize (F y I). unfold pair_lt. rewrite (lex_lt_asym _ _ F). destruct (eqb_spec (fst y) (fst x)) as [E|_]; [|reflexivity]. rewrite E, lex_lt_irrefl in F. discriminate.
Qed.
Definition entry_of (p : N * bytes * bytes) : entry := (block_key_hash (fst (fst p)) (snd p), snd (fst p)).
Lemma nth_combine {A B} (a : list A) : forall (b : list B) i p, nth_error (combine a b) i = Some p -> nth_error a i = Some (fst p) /\ nth_error b i = Some (snd p).
Proof. induction a as [|x a IH]; intros [|y b] [|i] p E; try discriminate; cbn [combine nth_error] in *; [injection E as <-; split; reflexivity|now apply IH]. Qed.

Section Store.
  Variable keccak : bytes -> bytes.
  Variable recover : bytes -> bytes -> bool -> option bytes.
  Hypothesis Hk : forall x, length (keccak x) = 32%nat.
  Hypothesis Hr : forall h s p k, recover h s p = Some k -> exists r, k = 4 :: r.
  Variable d : database.
  Variable c : chain_config.
  Variable max from : N.
  Variable blocks : list chain_block.
  Hypothesis W : waiting_chain keccak recover d c max from blocks.
  Variable pick : list (entry * nat) -> nat.
  Hypothesis Pk : least_first pick.
  Notation fb := (filter has_txs blocks).

  Lemma fb_in b : In b fb -> In b blocks /\ b_txs b <> [] /\ from <= b_number b < 2 ^ 64 /\ blen (concat (b_senders b)) = 20 * N.of_nat (length (b_txs b)).
  Proof.
    intros I. apply filter_In in I as (I & H). split; [exact I|]. split; [intros E; unfold has_txs in H; rewrite E in H; discriminate|]. split.
    - apply In_nth_error in I as (i & E). pose proof (nth_lt _ _ _ E). rewrite (wc_number _ _ _ _ _ _ _ W i b E). pose proof (wc_fits _ _ _ _ _ _ _ W). lia.
    - apply (senders_length keccak recover Hk Hr). exact (wc_recovered _ _ _ _ _ _ _ W b I).
  Qed.
  Lemma entries_nth m i e : nth_error (entries blocks m) i = Some e -> exists b g, nth_error fb i = Some b /\ (i < m)%nat /\ nth_error blocks i = Some g /\ e = (block_key_hash (b_number b) (b_hash g), concat (b_senders b)).
  Proof.
    unfold entries. intros E. rewrite nth_error_map in E. destruct (nth_error (combine _ _) i) as [p|] eqn:Ec; [|discriminate]. injection E as <-. apply nth_combine in Ec as (E1 & E2). rewrite nth_error_map in E1, E2. destruct (nth_error (firstn m fb) i) as [b|] eqn:Eb; [|discriminate]. destruct (nth_error blocks i) as [g|] eqn:Eg; [|discriminate]. injection E1 as E1. injection E2 as E2.
    exists b, g. pose proof (nth_lt _ _ _ Eb) as Li. rewrite firstn_length in Li. split; [|split; [lia|split; [reflexivity|rewrite <- E1, <- E2; reflexivity]]]. rewrite <- (firstn_skipn m fb). rewrite nth_error_app1 by (rewrite firstn_length; lia). exact Eb.
  Qed.
  Lemma entries_length m : (m <= length fb)%nat -> length (entries blocks m) = m.
  Proof. intros L. unfold entries. pose proof (filter_le has_txs blocks). rewrite map_length, combine_length, !map_length, firstn_length. lia. Qed.
  Lemma rising_nth l : forall n i j b1 b2, rising n l -> nth_error l i = Some b1 -> nth_error l j = Some b2 -> (i < j)%nat -> b_number b1 < b_number b2.
  Proof.
    assert (Low : forall l n b, rising n l -> In b l -> n < b_number b).
    { induction l0 as [|x l0 IH]; intros n b R []; destruct R as (R1 & R2); [subst x; exact R1|]. pose proof (IH _ _ R2 H). lia. }
    induction l as [|x l IH]; intros n [|i] [|j] b1 b2 R E1 E2 L; try discriminate; try lia; destruct R as (R1 & R2); cbn [nth_error] in *.
    - injection E1 as <-. apply (Low l); [exact R2|]. eapply nth_error_In; exact E2.
    - eapply IH; [exact R2|exact E1|exact E2|lia].
  Qed.
  Lemma sorted_by_nth {A} (R : A -> A -> Prop) l : (forall i j x y, (i < j)%nat -> nth_error l i = Some x -> nth_error l j = Some y -> R x y) -> StronglySorted R l.
  Proof.
    induction l as [|x l IH]; intros H; constructor.
    - apply IH. intros i j a b L Ea Eb. apply (H (S i) (S j)); [lia|exact Ea|exact Eb].
    - apply Forall_forall. intros y I. apply In_nth_error in I as (j & E). apply (H 0%nat (S j)); [lia|reflexivity|exact E].
  Qed.
  Lemma entries_ordered m : ordered (d kSenders ++ entries blocks m).
  Proof.
    apply sorted_join.
    - exact (wf_single d kSenders (wc_wf _ _ _ _ _ _ _ W) eq_refl).
    - apply sorted_by_nth. intros i j x y L Ex Ey. destruct (entries_nth m i x Ex) as (b1 & g1 & E1 & _ & _ & ->). destruct (entries_nth m j y Ey) as (b2 & g2 & E2 & _ & _ & ->). cbn [fst].
      destruct (fb_in b1 (nth_error_In _ _ E1)) as (_ & _ & L1 & _). destruct (fb_in b2 (nth_error_In _ _ E2)) as (_ & _ & L2 & _). apply (proj2 (block_key_hash_lt _ _ _ _ (proj2 L1) (proj2 L2))). left.
      apply (rising_nth fb (from - 1) i j b1 b2); try assumption. apply rising_filter. exact (blocks_rising keccak recover d c max from blocks W).
    - intros (k, v) e I1 I2. destruct (wc_old _ _ _ _ _ _ _ W k v I1) as (n & h & -> & Ln & _). apply In_nth_error in I2 as (i & E). destruct (entries_nth m i e E) as (b & g & Eb & _ & _ & ->). destruct (fb_in b (nth_error_In _ _ Eb)) as (_ & _ & Lb & _). cbn [fst]. apply (proj2 (block_key_hash_lt n _ _ _ ltac:(lia) (proj2 Lb))). left. lia.
  Qed.
  Lemma key_length n h : length h = 32%nat -> length (block_key_hash n h) = 40%nat.
  Proof. intros L. unfold block_key_hash. rewrite app_length, be_fixed_length, L. reflexivity. Qed.
  Lemma key_number n h : n < 2 ^ 64 -> be_to_N (firstn 8 (block_key_hash n h)) = n.
  Proof. intros L. unfold block_key_hash, block_key. rewrite firstn_app, be_fixed_length, Nat.sub_diag, firstn_O, app_nil_r, firstn_all2 by (rewrite be_fixed_length; lia). apply be_to_N_be_fixed_small. exact L. Qed.
  Lemma total_bound l k : Forall (fun e => entry_size e + 8 <= k) l -> total_size l <= N.of_nat (length l) * k.
  Proof. induction 1 as [|e l H _ IH]; [cbn; lia|]. cbn [length]. change (total_size (e :: l)) with (entry_size e + 8 + total_size l). lia. Qed.
  Lemma entry_bounds m : Forall (fun e => length (fst e) = 40%nat /\ blen (snd e) <= max * 20) (entries blocks m).
  Proof.
    apply Forall_forall. intros e I. apply In_nth_error in I as (i & E). destruct (entries_nth m i e E) as (b & g & Eb & _ & Eg & ->). destruct (fb_in b (nth_error_In _ _ Eb)) as (Ib & _ & _ & Ls). cbn [fst snd]. split; [apply key_length; exact (wc_hash _ _ _ _ _ _ _ W g (nth_error_In _ _ Eg))|]. rewrite Ls. pose proof (wc_batch _ _ _ _ _ _ _ W b Ib). lia.
  Qed.
  Definition reached (m : nat) : N := match m with O => from - 1 | S k => match nth_error fb k with Some b => b_number b | None => from - 1 end end.
  Lemma conclude_ok f m : (m <= length fb)%nat -> f_stop f = false -> f_collected f = entries blocks m ->
    exists d', conclude pick d f = Done (kStageSuccess, d') /\ wf_db d' /\ d' kSenders = d kSenders ++ entries blocks m /\ (forall t, t <> kSenders -> t <> kSyncStageProgress -> d' t = d t)
      /\ (forall name, get_stage_progress d' name = if bytes_eqb kSendersKey name then Done (reached m) else get_stage_progress d name).
  Proof.
    intros Lm Sf Cf. pose proof (wc_wf _ _ _ _ _ _ _ W) as Wd. unfold conclude. rewrite Cf, Sf. destruct m as [|m].
    - assert (E0 : entries blocks 0 = []) by reflexivity. rewrite E0. exists d. split; [reflexivity|]. split; [exact Wd|]. split; [now rewrite app_nil_r|]. split; [reflexivity|]. intros name. destruct (eqb_spec kSendersKey name) as [<-|_]; [exact (wc_progress _ _ _ _ _ _ _ W)|reflexivity].
    - pose proof (entries_length (S m) Lm) as Le. pose proof (entry_bounds (S m)) as Fb. pose proof (entries_ordered (S m)) as O. pose proof (wc_size _ _ _ _ _ _ _ W) as Lz. pose proof (wc_total _ _ _ _ _ _ _ W) as Lt. pose proof (filter_le has_txs blocks) as Lf.
      assert (Ld : load_append pick (d kSenders) (entries blocks (S m)) = Done (d kSenders ++ entries blocks (S m))).
      { destruct (load_append_eq pick Pk (d kSenders) (entries blocks (S m))) as (l & Io & P & ->).
        - apply Forall_forall. intros e I. rewrite Forall_forall in Fb. destruct (Fb e I) as (F1 & F2). assert (Hb : blen (fst e) = 40) by exact (f_equal N.of_nat F1). split; [rewrite Hb; reflexivity|exact (N.le_lt_trans _ _ _ F2 Lz)].
        - apply Forall_forall. intros e I. rewrite Forall_forall in Fb. destruct (Fb e I) as (F1 & F2). left. intros X. pose proof (eq_trans (eq_sym (f_equal (@length N) X)) F1) as Y. discriminate Y.
        - assert (T : Forall (fun e => entry_size e + 8 <= 60 + max * 20) (entries blocks (S m))) by (apply Forall_forall; intros e I; rewrite Forall_forall in Fb; destruct (Fb e I) as (F1 & F2); assert (Hb : blen (fst e) = 40) by exact (f_equal N.of_nat F1); unfold entry_size; rewrite Hb; assert (Hs : blen (snd e) <= max * 20) by exact F2; revert Hs; generalize (blen (snd e)); intros; lia). apply total_bound in T. nia.
        - replace l with (entries blocks (S m)) by (apply sorted_unique; [apply ordered_in_order; now apply sorted_app in O as (_ & O & _)|exact Io|now symmetry]). now apply append_all_ordered. }
      destruct (nth_error (entries blocks (S m)) m) as [e|] eqn:Ee; [|apply nth_error_None in Ee; lia]. destruct (entries_nth (S m) m e Ee) as (b & g & Eb & _ & Eg & Eq). destruct (fb_in b (nth_error_In _ _ Eb)) as (_ & _ & Lb & _).
      assert (Es : exists s, entries blocks (S m) = s ++ [e]).
      { apply nth_error_split in Ee as (s & r & Es & Ls). rewrite Es in Le. rewrite app_length in Le. cbn [length] in Le. destruct r; [eauto|cbn [length] in Le; lia]. }
      destruct (entries blocks (S m)) as [|e0 es] eqn:E0; [discriminate|]. rewrite <- E0 in *. rewrite Ld. cbn [obind]. destruct Es as (s & Es). assert (Er : rev (d kSenders ++ entries blocks (S m)) = e :: rev (d kSenders ++ s)) by (rewrite Es, app_assoc, rev_app_distr; reflexivity). rewrite Er. rewrite Eq. rewrite key_length by exact (wc_hash _ _ _ _ _ _ _ W g (nth_error_In _ _ Eg)). change (40 <? 8)%nat with false. cbn iota. rewrite key_number by lia.
      assert (Ws : wf_db (set_table d kSenders (d kSenders ++ entries blocks (S m)))) by (apply set_table_wf; [exact Wd|exact O]).
      destruct (get_after_set _ kSendersKey (b_number b) kSyncStageProgress kSendersKey Ws eq_refl known_senders ltac:(lia)) as (d' & Sd & Wd' & Od & _). unfold set_stage_progress. rewrite Sd. cbn [obind]. exists d'. split; [reflexivity|]. split; [exact Wd'|]. split; [rewrite Od by discriminate; apply set_table_same|]. split; [intros t N1 N2; rewrite Od by exact N2; now apply set_table_other|].
      intros name. destruct (get_after_set _ kSendersKey (b_number b) kSyncStageProgress name Ws eq_refl known_senders ltac:(lia)) as (d2 & Sd2 & _ & _ & G). rewrite Sd in Sd2. injection Sd2 as <-. unfold get_stage_progress at 1. rewrite G. unfold reached. rewrite Eb. destruct (bytes_eqb kSendersKey name); [reflexivity|]. unfold get_stage_progress, get_stage_data. rewrite set_table_other by discriminate. reflexivity.
  Qed.
  (** Blocks without transactions come first or are absent: then the hashes fit. *)
  Lemma entries_full m : (forall b, In b blocks -> b_txs b <> []) -> entries blocks m = map senders_entry (firstn m blocks) /\ fb = blocks.
  Proof.
    intros H. assert (E : fb = blocks).
    { clear W. induction blocks as [|b l IH]; [reflexivity|]. cbn [filter]. assert (X : has_txs b = true) by (unfold has_txs; pose proof (H b (or_introl eq_refl)); destruct (b_txs b); [congruence|reflexivity]). rewrite X, IH; [reflexivity|]. intros b0 I. apply H. now right. }
    split; [|exact E]. unfold entries. rewrite E. clear. revert m. induction blocks as [|b l IH]; intros [|m]; try reflexivity. cbn [firstn map combine]. exact (f_equal (cons (senders_entry b)) (IH m)).
  Qed.
  Lemma read_entry d' m b : wf_db d' -> d' kSenders = d kSenders ++ entries blocks m -> In b blocks -> In (senders_entry b) (entries blocks m) -> read_senders d' (b_number b) (b_hash b) = Done (b_senders b).
  Proof.
    intros Wd' E Ib I. apply read_senders_spec.
    - pose proof (wc_recovered _ _ _ _ _ _ _ W b Ib) as F. clear - F Hk Hr. induction F as [|t a ts ss Ft _ IH]; constructor; [|exact IH]. now destruct (address_of_package keccak recover Hk Hr 0 t a Ft).
    - right. apply lookup_spec; [apply (wf_single d' kSenders Wd' eq_refl)|]. rewrite E. apply in_or_app. right. exact I.
  Qed.
  (** A block with transactions after one without. *)
  Lemma filter_shift l : forall i j a b, nth_error l i = Some a -> has_txs a = false -> nth_error l j = Some b -> (i < j)%nat -> forall k b', nth_error (filter has_txs l) k = Some b' -> b_number b' = b_number b -> (forall x y bx by_, nth_error l x = Some bx -> nth_error l y = Some by_ -> b_number bx = b_number by_ -> x = y) -> (k < j)%nat.
  Proof.
    induction l as [|x l IH]; intros [|i] [|j] a b Ea Ha Eb L k b' Ek En Inj; try discriminate; try lia; cbn [nth_error filter] in *.
    - injection Ea as ->. rewrite Ha in Ek. assert (Hl : forall l k b', nth_error (filter has_txs l) k = Some b' -> exists p, nth_error l p = Some b' /\ (k <= p)%nat).
      { clear. induction l as [|x l IH]; intros k b' E; [destruct k; discriminate|]. cbn [filter] in E. destruct (has_txs x); [destruct k as [|k]; cbn [nth_error] in E; [exists 0%nat; split; [exact E|lia]|]|]; apply IH in E as (p & Ep & Lp); exists (S p); (split; [exact Ep|lia]). }
      destruct (Hl l k b' Ek) as (p & Ep & Lp). assert (S p = S j) by (eapply Inj; [exact Ep|exact Eb|exact En]). lia.
    - destruct (has_txs x) eqn:Hx; [destruct k as [|k]; [lia|]|]; cbn [nth_error] in Ek.
      + assert ((k < j)%nat); [|lia]. apply (IH i j a b Ea Ha Eb ltac:(lia) k b' Ek En). intros x0 y0 bx by_ E1 E2 E3. pose proof (Inj (S x0) (S y0) bx by_ E1 E2 E3). lia.
      + assert ((k < j)%nat); [|lia]. apply (IH i j a b Ea Ha Eb ltac:(lia) k b' Ek En). intros x0 y0 bx by_ E1 E2 E3. pose proof (Inj (S x0) (S y0) bx by_ E1 E2 E3). lia.
  Qed.
  Lemma read_shifted d' m i j a b : wf_db d' -> d' kSenders = d kSenders ++ entries blocks m -> List.NoDup (map b_hash blocks) ->
    nth_error blocks i = Some a -> b_txs a = [] -> nth_error blocks j = Some b -> (i < j)%nat -> read_senders d' (b_number b) (b_hash b) = Done [].
  Proof.
    intros Wd' E Nd Ea Ta Eb L. apply read_senders_spec; [constructor|]. left. split; [reflexivity|]. apply lookup_none; [apply (wf_single d' kSenders Wd' eq_refl)|]. intros v I. rewrite E in I. apply in_app_or in I as [I|I].
    - pose proof (nth_lt _ _ _ Eb). pose proof (wc_fits _ _ _ _ _ _ _ W). pose proof (wc_number _ _ _ _ _ _ _ W j b Eb). destruct (wc_old _ _ _ _ _ _ _ W _ _ I) as (n & h & Ek & Ln & _). apply (proj1 (proj2 keys_injective)) in Ek as (Ek & _); lia.
    - apply In_nth_error in I as (k & Ee). destruct (entries_nth m k _ Ee) as (b' & g & Eb' & _ & Eg & Eq). apply pair_equal_spec in Eq as (Eq & _). destruct (fb_in b' (nth_error_In _ _ Eb')) as (_ & _ & Lb' & _). pose proof (nth_lt _ _ _ Eb) as Lj. pose proof (wc_fits _ _ _ _ _ _ _ W). pose proof (wc_number _ _ _ _ _ _ _ W j b Eb). apply (proj1 (proj2 keys_injective)) in Eq as (En & Eh); [|lia|lia].
      assert (Lk : (k < j)%nat). { apply (filter_shift blocks i j a b Ea ltac:(unfold has_txs; rewrite Ta; reflexivity) Eb L k b' Eb' (eq_sym En)). intros x y bx by_ E1 E2 E3. rewrite (wc_number _ _ _ _ _ _ _ W x bx E1), (wc_number _ _ _ _ _ _ _ W y by_ E2) in E3. lia. }
      assert (k = j); [|lia]. eapply (proj1 (NoDup_nth_error (map b_hash blocks)) Nd); [rewrite map_length; lia|]. rewrite !nth_error_map, Eg, Eb. cbn. now rewrite Eh.
  Qed.
End Store.
