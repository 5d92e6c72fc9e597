(** The farm: from every interleaving to the database. *)
From Coq Require Import Strings.String Permutation Sorting.Sorted.
From Verif Require Import Base BaseFacts TxModel BlockModel ChainModel DbTable DbModel DbSpec DbProofs DbBlockProofs EtlModel EtlSpec EtlProofs EtlLemmas UnwindProofs HashStateModel HashStateProofs FarmModel FarmSpec FarmProofs FarmProofs2.
Open Scope list_scope.
Open Scope N_scope.

Lemma find_suffix (t : table) l k v r : ordered t -> t = l ++ (k, v) :: r -> find t k = (k, v) :: r.
Proof.
  intros O E. destruct (find_first t k (ordered_dup t O)) as [(F & N0)|(pre & w & s & E2 & F & L)]; [exfalso; apply (N0 v); rewrite E; apply in_or_app; right; now left|].
  rewrite F. assert (Ew : w = v) by (eapply (ordered_fun t k); [exact O| |]; [rewrite E2|rewrite E]; apply in_or_app; right; now left). subst w.
  rewrite E in O. rewrite E in E2. clear E F. revert pre E2 L. induction l as [|x l IH]; intros pre E2 L; cbn [app] in E2.
  - destruct pre as [|y pre]; cbn [app] in E2; [injection E2 as <-; reflexivity|]. injection E2 as <- E2. pose proof (L (k, v) (or_introl eq_refl)) as X. cbn [fst] in X. rewrite lex_lt_irrefl in X. discriminate.
  - destruct pre as [|y pre]; cbn [app] in E2.
    + exfalso. injection E2 as -> E2. apply sorted_cons_inv in O as (_ & F). assert (X : lex_lt (fst (k, v)) (fst (k, v)) = true) by (apply F, in_or_app; right; now left). rewrite lex_lt_irrefl in X. discriminate.
    + injection E2 as <- E2. apply sorted_cons_inv in O as (O & _). apply (IH O pre E2). intros e Ie. apply L. now right.
Qed.

Section Headers.
  Lemma canonical_ok blocks : forall from reached, from + N.of_nat (length blocks) < 2 ^ 64 -> (forall i b, nth_error blocks i = Some b -> b_number b = from + N.of_nat i) -> (forall b, In b blocks -> length (b_hash b) = 32%nat) ->
    canonical_headers (map (fun b => (block_key (b_number b), b_hash b)) blocks) from reached = Done (Some (map b_hash blocks, if Nat.eqb (length blocks) 0 then reached else from + N.of_nat (length blocks) - 1)).
  Proof.
    induction blocks as [|b blocks IH]; intros from reached L Num Lh; [reflexivity|]. cbn [map canonical_headers]. pose proof (Num 0%nat b eq_refl) as En. rewrite N.add_0_r in En. cbn [length] in L. rewrite En.
    assert (E8 : length (block_key from) = 8%nat) by apply be_fixed_length. assert (Eb : be_to_N (firstn 8 (block_key from)) = from) by (rewrite firstn_all2 by lia; apply be_to_N_be_fixed_small; change (256 ^ N.of_nat 8) with (2 ^ 64); lia). rewrite E8, Eb. change (8 <? 8)%nat with false. cbn iota. rewrite N.eqb_refl. cbn [negb]. rewrite (Lh b (or_introl eq_refl)). change (negb (Nat.eqb 32 32)) with false. cbn iota. rewrite N.mod_small by lia.
    rewrite (IH (from + 1) from); [|lia|intros i b0 Ei; rewrite (Num (S i) b0 Ei); lia|intros b0 Ib; apply Lh; now right]. cbn [obind length Nat.eqb]. do 4 f_equal. destruct blocks as [|b1 blocks]; cbn [length Nat.eqb]; lia.
  Qed.
End Headers.

Section Chain.
  Variable keccak : bytes -> bytes.
  Variable recover : bytes -> bytes -> bool -> option bytes.
  Hypothesis Hk : forall x, length (keccak x) = 32%nat.
  Hypothesis Hr : forall h s p k, recover h s p = Some k -> exists r, k = 4 :: r.
  Variable d : database.
  Variable c : chain_config.
  Variable max from : N.
  Variable blocks : list chain_block.
  Hypothesis W : waiting_chain keccak recover d c max from blocks.
  Notation groups := (grouping max [] blocks).
  Notation batches := (map (batch_of keccak) groups).

  Lemma body_read b : In b blocks -> exists v, In (block_key_hash (b_number b) (b_hash b), v) (d kBlockBodies) /\ (do (s, _) := decode_stored v in read_transactions d (sb_base s) (sb_count s)) = Done (b_txs b).
  Proof.
    intros Ib. destruct (wc_body _ _ _ _ _ _ _ W b Ib) as (body & R & Et). unfold read_body in R. destruct (lookup (d kBlockBodies) (block_key_hash (b_number b) (b_hash b))) as [v|] eqn:Lv; [|discriminate]. exists v. split; [apply lookup_spec; [apply (wf_single d kBlockBodies (wc_wf _ _ _ _ _ _ _ W) eq_refl)|exact Lv]|].
    destruct (decode_stored v) as [(s & r)| |]; cbn [obind] in *; try discriminate. destruct (read_transactions d (sb_base s) (sb_count s)) as [txs| |]; cbn [obind] in *; try discriminate. injection R as <-. cbn [bd_transactions] in Et. now rewrite Et.
  Qed.
  Lemma prepare_ok height_from height_to : from + N.of_nat (length blocks) - 1 <= height_to -> prepare keccak max c d height_from height_to = Done (inr (map b_hash blocks, (batches, E_finish))).
  Proof.
    intros Lt. pose proof (wc_fits _ _ _ _ _ _ _ W) as Lf. pose proof (wc_positive _ _ _ _ _ _ _ W) as Lp. pose proof (wc_some _ _ _ _ _ _ _ W) as Nb. unfold prepare. rewrite (wc_progress _ _ _ _ _ _ _ W). cbn [obind]. replace (from - 1 + 1) with from by lia. rewrite (N.mod_small from) by lia.
    assert (Ef : (if (if from <? height_from then from else height_from) <=? from - 1 then from else if from <? height_from then from else height_from) = from).
    { destruct (N.ltb_spec from height_from) as [X|X]; [destruct (N.leb_spec from (from - 1)); reflexivity|]. destruct (N.leb_spec height_from (from - 1)); [reflexivity|lia]. }
    rewrite Ef. rewrite (wc_reached _ _ _ _ _ _ _ W). cbn [obind]. assert (Lb : (1 <= length blocks)%nat) by (destruct blocks; [congruence|cbn; lia]). destruct (N.ltb_spec (from + N.of_nat (length blocks) - 1) from) as [X|X]; [lia|]. rewrite andb_false_r. cbn iota. rewrite N.min_r by lia. destruct (N.ltb_spec (from + N.of_nat (length blocks) - 1) from) as [Y|Y]; [lia|].
    destruct (wc_canonical _ _ _ _ _ _ _ W) as (l & Ec). pose proof (wf_single d kCanonicalHashes (wc_wf _ _ _ _ _ _ _ W) eq_refl) as Oc. pose proof (wc_number _ _ _ _ _ _ _ W) as Num. pose proof (wc_hash _ _ _ _ _ _ _ W) as Lh.
    assert (Ef2 : fill_canonical_headers d from (from + N.of_nat (length blocks) - 1) = Done (Some (map b_hash blocks))).
    { unfold fill_canonical_headers. pose proof (canonical_ok blocks from 0 Lf Num Lh) as Ck. destruct blocks as [|b bl] eqn:Eb; [congruence|]. cbn [map] in Ec. rewrite (find_suffix _ l (block_key from) (b_hash b) (map (fun b => (block_key (b_number b), b_hash b)) bl) Oc); [|rewrite Ec; pose proof (Num 0%nat b eq_refl) as En; rewrite N.add_0_r in En; now rewrite En].
      cbn [map] in Ck. pose proof (Num 0%nat b eq_refl) as En. rewrite N.add_0_r in En. rewrite En in Ck. cbn iota. cbn [length Nat.eqb] in *. unfold table, entry in *. rewrite Ck. cbn [obind]. rewrite N.eqb_refl. reflexivity. }
    rewrite Ef2. cbn [obind]. rewrite map_length. replace (from + N.of_nat (length blocks) - 1 - from + 1) with (N.of_nat (length blocks)) by lia. rewrite N.eqb_refl. cbn [negb].
    assert (Ex : exists b bl, blocks = b :: bl) by (destruct blocks as [|b bl]; [congruence|eauto]). destruct Ex as (b & bl & Eb). assert (Em : map b_hash blocks = b_hash b :: map b_hash bl) by (rewrite Eb; reflexivity). rewrite Em. pose proof (Num 0%nat b ltac:(rewrite Eb; reflexivity)) as En. rewrite N.add_0_r in En. assert (Ib : In b blocks) by (rewrite Eb; now left). destruct (body_read b Ib) as (v & Iv & _). rewrite En in Iv.
    pose proof (wf_single d kBlockBodies (wc_wf _ _ _ _ _ _ _ W) eq_refl) as Ob. destruct (find_first (d kBlockBodies) (block_key_hash from (b_hash b)) (ordered_dup _ Ob)) as [(_ & N0)|(pre & w & r & E2 & F & L)]; [exfalso; now apply (N0 v)|].
    rewrite F. do 3 f_equal. rewrite <- Em. change (@nil package) with (batch_of keccak []). apply read_all.
    - rewrite Eb; discriminate.
    - rewrite E2 in Ob. now apply sorted_app in Ob as (_ & Ob & _).
    - intros k0 v0 I0. apply (wc_keys _ _ _ _ _ _ _ W k0 v0). rewrite E2. apply in_or_app. now right.
    - exact Num.
    - exact Lf.
    - intros b0 Ib0. split; [now apply Lh|]. split; [apply Forall_forall; intros t It; exact (wc_signed _ _ _ _ _ _ _ W b0 t Ib0 It)|]. destruct (body_read b0 Ib0) as (v0 & Iv0 & Dv0). exists v0. split; [|exact Dv0]. rewrite E2 in Iv0. apply in_app_or in Iv0 as [Iv0|Iv0]; [|exact Iv0]. exfalso.
      apply L in Iv0. cbn [fst] in Iv0. apply In_nth_error in Ib0 as (i & Ei). pose proof (Num i b0 Ei) as En0. pose proof (nth_lt _ _ _ Ei) as Li. apply (proj1 (block_key_hash_lt (b_number b0) from _ _ ltac:(lia) ltac:(lia))) in Iv0. destruct Iv0 as [X0|(X0 & X1)]; [lia|].
      assert (i = 0%nat) by lia. subst i. rewrite Eb in Ei. injection Ei as <-. rewrite lex_lt_irrefl in X1. discriminate.
    - constructor.
  Qed.

  (** ** Results *)
  Lemma in_blocks g b : In g groups -> In b g -> In b blocks /\ b_txs b <> [].
  Proof.
    intros Ig Ib. assert (I : In b (concat groups)) by (apply in_concat; eauto). rewrite grouping_concat in I. cbn [app] in I. apply filter_In in I as (I & H). split; [exact I|]. intros E. unfold has_txs in H. rewrite E in H. discriminate.
  Qed.
  Lemma rising_blocks l : forall n m, (forall i b, nth_error l i = Some b -> b_number b = n + N.of_nat i) -> m < n -> rising m l.
  Proof. induction l as [|b l IH]; intros n m Num L; [exact I|]. pose proof (Num 0%nat b eq_refl) as En. split; [lia|]. apply (IH (n + 1)); [intros i b0 Ei; rewrite (Num (S i) b0 Ei); lia|lia]. Qed.
  Lemma rising_weaken l : forall m m', m' <= m -> rising m l -> rising m' l.
  Proof. destruct l as [|b l]; intros m m' L R; [exact I|]. destruct R as (R1 & R2). split; [lia|exact R2]. Qed.
  Lemma rising_filter f l : forall m, rising m l -> rising m (filter f l).
  Proof. induction l as [|b l IH]; intros m R; [exact I|]. destruct R as (R1 & R2). cbn [filter]. destruct (f b); [split; [exact R1|now apply IH]|]. apply (rising_weaken _ (b_number b)); [lia|now apply IH]. Qed.
  Lemma rising_app a b : forall m, rising m (a ++ b) -> rising m a /\ exists m', m <= m' /\ rising m' b.
  Proof.
    induction a as [|x a IH]; intros m R; cbn [app] in R; [split; [exact I|exists m; split; [lia|exact R]]|]. destruct R as (R1 & R2). apply IH in R2 as (R2 & m' & L & R3). split; [split; assumption|]. exists m'. split; [lia|exact R3].
  Qed.
  Lemma rising_concat gs : forall m, rising m (concat gs) -> forall g, In g gs -> exists m', rising m' g.
  Proof. induction gs as [|g0 gs IH]; intros m R g []; cbn [concat] in R; apply rising_app in R as (R1 & m' & _ & R2); [subst g0; eauto|eapply IH; eassumption]. Qed.
  Lemma blocks_rising : rising (from - 1) blocks.
  Proof. apply (rising_blocks blocks from); [exact (wc_number _ _ _ _ _ _ _ W)|pose proof (wc_positive _ _ _ _ _ _ _ W); lia]. Qed.
  Lemma group_work g : In g groups -> work keccak recover (max * 20) (batch_of keccak g) = Ready (map result g).
  Proof.
    intros Ig. pose proof (grouping_ok max blocks [] (wc_batch _ _ _ _ _ _ _ W) ltac:(unfold count; cbn; lia)) as G. rewrite Forall_forall in G. destruct (G g Ig) as (Ng & Lg). destruct (rising_concat groups (from - 1)) with (g := g) as (m & R); [rewrite grouping_concat; cbn [app]; apply rising_filter, blocks_rising|exact Ig|].
    unfold batch_of. apply (work_ok keccak recover Hk Hr (max * 20) g m Ng); [|exact R|lia]. apply Forall_forall. intros b Ib. destruct (in_blocks g b Ig Ib) as (I1 & I2). split; [exact (wc_recovered _ _ _ _ _ _ _ W b I1)|exact I2].
  Qed.
  Lemma batch_work b : In b batches -> exists g, In g groups /\ b = batch_of keccak g /\ work keccak recover (max * 20) b = Ready (map result g).
  Proof. intros Ib. apply in_map_iff in Ib as (g & <- & Ig). exists g. split; [exact Ig|]. split; [reflexivity|now apply group_work]. Qed.
  Lemma no_failure b : In b batches -> work keccak recover (max * 20) b <> Failed.
  Proof. intros Ib. destruct (batch_work b Ib) as (g & _ & _ & ->). discriminate. Qed.
  Lemma results_groups gs : incl gs groups -> results_of keccak recover (max * 20) (map (batch_of keccak) gs) = Some (map result (concat gs)).
  Proof.
    induction gs as [|g gs IH]; intros H; [reflexivity|]. cbn [map results_of concat]. rewrite (group_work g) by (apply H; now left). rewrite IH by (intros x I; apply H; now right). now rewrite map_app.
  Qed.
  Lemma firstn_incl {A} n (l : list A) : incl (firstn n l) l.
  Proof. intros x I. rewrite <- (firstn_skipn n l). apply in_or_app. now left. Qed.
  Lemma prefix_blocks k : exists m, (m <= length (filter has_txs blocks))%nat /\ concat (firstn k groups) = firstn m (filter has_txs blocks) /\ (k = length groups -> m = length (filter has_txs blocks)).
  Proof.
    pose proof (grouping_concat max blocks []) as E. cbn [app] in E. assert (E2 : filter has_txs blocks = concat (firstn k groups) ++ concat (skipn k groups)) by (rewrite <- concat_app, firstn_skipn; symmetry; exact E).
    exists (length (concat (firstn k groups))). rewrite E2, app_length. split; [lia|]. split; [now rewrite firstn_app, Nat.sub_diag, firstn_O, app_nil_r, firstn_all|]. intros ->. rewrite skipn_all2 by lia. cbn. lia.
  Qed.
  (** The entries that are collected: the m-th block with transactions, with the m-th hash. *)
  Definition entries (m : nat) : list entry := map (fun p => (block_key_hash (fst (fst p)) (snd p), snd (fst p))) (combine (map result (firstn m (filter has_txs blocks))) (map b_hash blocks)).
  Lemma bufferize_ok rs : forall hs, (length rs <= length hs)%nat -> bufferize hs rs = Some (map (fun p => (block_key_hash (fst (fst p)) (snd p), snd (fst p))) (combine rs hs), skipn (length rs) hs).
  Proof. induction rs as [|(n, a) rs IH]; intros [|h hs] L; cbn [bufferize combine map length skipn] in *; try lia; try reflexivity. rewrite IH by lia. reflexivity. Qed.
  Lemma filter_le {A} (f : A -> bool) l : (length (filter f l) <= length l)%nat.
  Proof. induction l as [|x l IH]; cbn; [lia|]. destruct (f x); cbn; lia. Qed.

  Section Runs.
    Variable max_workers : nat.
    Notation run := (run keccak recover (max * 20) max_workers E_finish).
    Notation start := (initial (map b_hash blocks) batches).
    Lemma run_inv f : run start f -> f_stop f = false /\ exists k, inv keccak recover (max * 20) max_workers (map b_hash blocks) batches f k.
    Proof.
      intros R. apply invariant in R as [(_ & b & Ib & Fb)|(k & I)]; [exfalso; exact (no_failure b Ib Fb)|]. split; [exact (i_stop _ _ _ _ _ _ _ _ I)|eauto].
    Qed.
    Lemma collected_ok f k : inv keccak recover (max * 20) max_workers (map b_hash blocks) batches f k -> exists m, (m <= length (filter has_txs blocks))%nat /\ f_collected f = entries m /\ ((length groups <= k)%nat -> m = length (filter has_txs blocks)).
    Proof.
      intros I. destruct (i_collected _ _ _ _ _ _ _ _ I) as (rs & R & B). rewrite firstn_map in R. rewrite (results_groups (firstn k groups)) in R by apply firstn_incl. injection R as <-. destruct (prefix_blocks k) as (m & Lm & Em & Fm). rewrite Em in B. pose proof (filter_le has_txs blocks).
      rewrite bufferize_ok in B by (rewrite !map_length, firstn_length; lia). injection B as B _. exists m. split; [exact Lm|]. split; [symmetry; exact B|]. intros Lk. apply Fm. pose proof (i_c _ _ _ _ _ _ _ _ I). pose proof (i_completed _ _ _ _ _ _ _ _ I). pose proof (i_bound _ _ _ _ _ _ _ _ I) as Lb. rewrite map_length in Lb. lia.
    Qed.
    (** Too many batches. *)
    Lemma too_many f : (1 <= max_workers)%nat -> N.of_nat max_workers * max < count blocks -> run start f -> f_main f <> M_wait /\ f_main f <> M_last /\ f_main f <> M_end.
    Proof.
      intros Lw Lc R. destruct (run_inv f R) as (_ & k & I). pose proof (i_max _ _ _ _ _ _ _ _ I Lw) as Lm. pose proof (i_next _ _ _ _ _ _ _ _ I) as Ln. pose proof (i_main _ _ _ _ _ _ _ _ I) as M.
      assert (Lg : (max_workers < length batches)%nat).
      { rewrite map_length. assert (Hc : forall gs, Forall (fun g => g <> [] /\ count g <= max) gs -> count (concat gs) <= N.of_nat (length gs) * max).
        { induction 1 as [|g gs (_ & Lg) _ IH]; [unfold count; cbn; lia|]. cbn [concat length]. rewrite count_app. lia. }
        pose proof (Hc groups (grouping_ok max blocks [] (wc_batch _ _ _ _ _ _ _ W) ltac:(unfold count; cbn; lia))) as H. rewrite grouping_concat in H. cbn [app] in H.
        assert (Ef : forall l, count (filter has_txs l) = count l).
        { induction l as [|b l IH]; [reflexivity|]. cbn [filter]. change (b :: l) with ([b] ++ l). rewrite count_app, count_one. destruct (has_txs b) eqn:E; [change (b :: filter has_txs l) with ([b] ++ filter has_txs l); rewrite count_app, count_one, IH; reflexivity|].
          rewrite IH. unfold has_txs in E. apply negb_false_iff, Nat.eqb_eq in E. rewrite E. lia. }
        rewrite Ef in H. nia. }
      repeat split; intros E; rewrite E in M; cbn [main_ok] in M; lia.
    Qed.
    (** Completed before the last collection. *)
    Lemma all_collected f1 f2 : run start f1 -> f_main f1 = M_last -> f_completed f1 = length batches -> run f1 f2 -> f_main f2 = M_end -> exists k, inv keccak recover (max * 20) max_workers (map b_hash blocks) batches f2 k /\ (length groups <= k)%nat.
    Proof.
      intros R1 M1 C1 R2 M2. destruct (run_inv f1 R1) as (_ & k1 & I1).
      assert (H : exists k, inv keccak recover (max * 20) max_workers (map b_hash blocks) batches f2 k /\ f_completed f2 = length batches /\ (f_main f2 = M_last \/ f_main f2 = M_undefined \/ (f_main f2 = M_end /\ (length groups <= k)%nat))).
      { clear M2. induction R2 as [f|f f1 f2 R IH St|f f1 f2 i R IH St].
        - exists k1. auto.
        - destruct (IH R1 M1 C1 I1) as (k & I & C & M). destruct St; rewrite ?H in *; try (destruct M as [M|[M|(M & _)]]; congruence).
          + destruct (round_keeps _ _ _ _ _ _ _ _ _ _ I ltac:(left; exact H) H0) as [(_ & X & _)|[(X & _)|(_ & k' & I')]]; [discriminate|discriminate|]. exists k'. split; [exact I'|]. assert (Eq : f_completed f' = f_completed f0 /\ (f_main f' = f_main f0 \/ f_main f' = M_undefined)) by (destruct H0; cbn; auto). destruct Eq as (-> & Em). split; [exact C|]. destruct Em as [->| ->]; auto.
          + destruct (round_keeps _ _ _ _ _ _ _ _ _ _ I ltac:(left; exact H) H0) as [(_ & _ & b & Ib & Fb)|[(_ & -> & Ek)|(X & _)]]; [exfalso; exact (no_failure b Ib Fb)| |discriminate]. exists k. split; [apply inv_at_main; [exact I|]; pose proof (i_main _ _ _ _ _ _ _ _ I) as Mk; rewrite H in Mk; exact Mk|]. cbn [at_main f_completed f_main]. split; [exact C|]. right. right. split; [reflexivity|]. rewrite Ek, C, map_length. lia.
        - destruct (IH R1 M1 C1 I1) as (k & I & C & M). exists k. pose proof (worker_keeps _ _ _ _ _ _ _ _ _ _ I St) as I'. split; [exact I'|]. assert (Em : f_main f2 = f_main f1 /\ (f_completed f1 <= f_completed f2)%nat) by (destruct St; cbn; auto). destruct Em as (Em & Lc). rewrite Em. split; [|exact M].
          pose proof (i_completed _ _ _ _ _ _ _ _ I'). pose proof (i_bound _ _ _ _ _ _ _ _ I'). lia. }
      destruct H as (k & I & _ & [M|[M|(_ & Lk)]]); [congruence|congruence|]. eauto.
    Qed.
  End Runs.
End Chain.
