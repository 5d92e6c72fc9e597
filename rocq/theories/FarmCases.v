(** The farm: final forms of the properties, refutations and a concrete chain. *)
From Coq Require Import Strings.String Permutation Sorting.Sorted.
From Verif Require Import Base BaseFacts TxModel BlockModel ChainModel DbTable DbModel DbSpec DbProofs DbBlockProofs EtlModel EtlSpec EtlProofs EtlLemmas UnwindProofs UnwindProofs2 HashStateModel HashStateProofs FarmModel FarmSpec FarmProofs FarmProofs2 FarmLemmas FarmFinal FarmRuns.
Open Scope list_scope.
Open Scope N_scope.

Lemma filter_count l : count (filter has_txs l) = count l.
Proof.
  induction l as [|b l IH]; [reflexivity|]. cbn [filter]. change (b :: l) with ([b] ++ l). rewrite count_app, count_one. destruct (has_txs b) eqn:E; [change (b :: filter has_txs l) with ([b] ++ filter has_txs l); rewrite count_app, count_one, IH; reflexivity|].
  rewrite IH. unfold has_txs in E. apply negb_false_iff, Nat.eqb_eq in E. rewrite E. lia.
Qed.
Lemma grouping_one max l : forall cur, count cur + count l <= max -> grouping max cur l = group_of (cur ++ filter has_txs l).
Proof.
  induction l as [|b l IH]; intros cur L; cbn [grouping filter]; [now rewrite app_nil_r|]. change (b :: l) with ([b] ++ l) in L. rewrite count_app, count_one in L. destruct (has_txs b); [|apply IH; lia]. destruct (N.ltb_spec max (count cur + N.of_nat (length (b_txs b)))) as [X|X]; [lia|]. rewrite IH by (rewrite count_app, count_one; lia). now rewrite <- app_assoc.
Qed.

Lemma no_bad_sequence keccak recover size max_workers f0 f : f_main f0 <> M_bad_sequence -> run keccak recover size max_workers E_finish f0 f -> f_main f <> M_bad_sequence.
Proof.
  intros H R. induction R as [f|f f1 f2 R IH St|f f1 f2 i R IH St]; [exact H| |]; specialize (IH H).
  - destruct St as [f1 b todo M|f1 b todo M|f1 M|f1 b todo i w M|f1 b todo i M|f1 b todo M|f1 b todo M|f1 f' b todo M Rd|f1 f' b todo M Rd|f1 f' b todo M Rd|f1 i M|f1 M|f1 f' M Rd|f1 f' r M Rd]; cbn [at_main f_main]; try discriminate; try exact IH; inversion Rd; subst; cbn; rewrite ?M; discriminate.
  - destruct St; cbn; exact IH.
Qed.
Lemma run_trans keccak recover size max_workers e f0 f1 f2 : run keccak recover size max_workers e f0 f1 -> run keccak recover size max_workers e f1 f2 -> run keccak recover size max_workers e f0 f2.
Proof. intros R1 R2. induction R2 as [f|f f1 f2 R IH St|f f1 f2 i R IH St]; [exact R1| |]; [exact (run_main _ _ _ _ _ _ _ _ (IH R1) St)|exact (run_worker _ _ _ _ _ _ _ _ i (IH R1) St)]. Qed.
Section Final.
  Variable keccak : bytes -> bytes.
  Variable recover : bytes -> bytes -> bool -> option bytes.
  Hypothesis Hk : forall x, length (keccak x) = 32%nat.
  Hypothesis Hr : forall h s p k, recover h s p = Some k -> exists r, k = 4 :: r.
  Variable pick : list (entry * nat) -> nat.
  Hypothesis Pk : least_first pick.
  Variable max_workers : nat.
  Variable d : database.
  Variable c : chain_config.
  Variable max from : N.
  Variable blocks : list chain_block.
  Hypothesis W : waiting_chain keccak recover d c max from blocks.
  Variable height_from height_to : N.
  Hypothesis Ht : from + N.of_nat (length blocks) - 1 <= height_to.
  Notation returns := (returns keccak recover pick max max_workers c).
  Notation prep := (prepare_ok keccak recover Hk Hr d c max from blocks W height_from height_to Ht).

  Lemma returned r d' : returns d height_from height_to r d' -> r = kStageSuccess /\ wf_db d' /\ exists m, (m <= length (filter has_txs blocks))%nat /\ d' kSenders = d kSenders ++ entries blocks m /\ (forall t, t <> kSenders -> t <> kSyncStageProgress -> d' t = d t)
    /\ (forall name, get_stage_progress d' name = if bytes_eqb kSendersKey name then Done (reached from blocks m) else get_stage_progress d name).
  Proof.
    intros R. destruct R as [r P|hs bs e f P R M|hs bs e f r d' P R M Cl]; rewrite prep in P; [discriminate| |]; apply (f_equal (fun x => match x with Done (inr y) => y | _ => ([], ([], E_undefined)) end)) in P; apply pair_equal_spec in P as (<- & P); apply pair_equal_spec in P as (<- & <-).
    - exfalso. refine (no_bad_sequence keccak recover (max * 20) max_workers _ f _ R M). discriminate.
    - destruct (run_inv keccak recover Hk Hr d c max from blocks W max_workers f R) as (Sf & k & I). destruct (collected_ok keccak recover Hk Hr d c max from blocks W max_workers f k I) as (m & Lm & Cm & _).
      destruct (conclude_ok keccak recover Hk Hr d c max from blocks W pick Pk f m Lm Sf Cm) as (d2 & E2 & W2 & S2 & O2 & P2). rewrite E2 in Cl. apply (f_equal (fun x => match x with Done y => y | _ => (kStageSuccess, d) end)) in Cl. apply pair_equal_spec in Cl as (<- & <-). split; [reflexivity|]. split; [exact W2|]. exists m. auto.
  Qed.
  Lemma reached_full m : (forall b, In b blocks -> b_txs b <> []) -> (m <= length blocks)%nat -> reached from blocks m = from + N.of_nat m - 1.
  Proof.
    intros F L. unfold reached. destruct m as [|m]; [lia|]. destruct (entries_full blocks 0 F) as (_ & ->). destruct (nth_error blocks m) as [b|] eqn:E; [rewrite (wc_number _ _ _ _ _ _ _ W m b E); lia|]. apply nth_error_None in E. lia.
  Qed.
  Notation stored := (senders_stored d from blocks).
  Lemma stored_from m d' : (forall b, In b blocks -> b_txs b <> []) -> (m <= length blocks)%nat -> wf_db d' -> d' kSenders = d kSenders ++ entries blocks m -> (forall t, t <> kSenders -> t <> kSyncStageProgress -> d' t = d t)
    -> (forall name, get_stage_progress d' name = if bytes_eqb kSendersKey name then Done (reached from blocks m) else get_stage_progress d name) -> stored m d'.
  Proof.
    intros F L W2 S2 O2 P2. destruct (entries_full blocks m F) as (Ee & _). split; [now rewrite <- Ee|]. split; [|split; [exact O2|]].
    - intros b Ib. apply (read_entry keccak recover Hk Hr d c max from blocks W d' m b W2 S2); [now apply firstn_incl in Ib|]. rewrite Ee. now apply in_map.
    - intros name. rewrite P2. now rewrite (reached_full m F L).
  Qed.
  Lemma stored_prefix r d' : (forall b, In b blocks -> b_txs b <> []) -> returns d height_from height_to r d' -> r = kStageSuccess /\ exists m, (m <= length blocks)%nat /\ stored m d'.
  Proof.
    intros F R. destruct (returned r d' R) as (-> & W2 & m & Lm & S2 & O2 & P2). split; [reflexivity|]. destruct (entries_full blocks m F) as (_ & Ef). rewrite Ef in Lm. exists m. split; [exact Lm|]. now apply stored_from.
  Qed.
  (** Everything, if every batch is complete when the farm collects for the last time. *)
  Lemma stored_all f1 f : (forall b, In b blocks -> b_txs b <> []) -> forall hs bs, prepare keccak max c d height_from height_to = Done (inr (hs, (bs, E_finish))) -> run keccak recover (max * 20) max_workers E_finish (initial hs bs) f1 -> f_main f1 = M_last -> f_completed f1 = length bs ->
    run keccak recover (max * 20) max_workers E_finish f1 f -> f_main f = M_end -> exists d', conclude pick d f = Done (kStageSuccess, d') /\ stored (length blocks) d'.
  Proof.
    intros F hs bs P R1 M1 C1 R2 M2. rewrite prep in P. apply (f_equal (fun x => match x with Done (inr y) => y | _ => ([], ([], E_undefined)) end)) in P. apply pair_equal_spec in P as (<- & P). apply pair_equal_spec in P as (<- & _).
    destruct (all_collected keccak recover Hk Hr d c max from blocks W max_workers f1 f R1 M1 C1 R2 M2) as (k & I & Lk). destruct (collected_ok keccak recover Hk Hr d c max from blocks W max_workers f k I) as (m & Lm & Cm & Fm). specialize (Fm Lk). destruct (entries_full blocks m F) as (_ & Ef). rewrite Ef in Lm, Fm. subst m.
    pose proof (i_stop _ _ _ _ _ _ _ _ I) as Sf. destruct (conclude_ok keccak recover Hk Hr d c max from blocks W pick Pk f (length blocks) ltac:(rewrite Ef; lia) Sf Cm) as (d2 & E2 & W2 & S2 & O2 & P2). exists d2. split; [exact E2|]. now apply stored_from.
  Qed.
  Lemma one_group : 0 < count blocks -> count blocks <= max -> exists g, grouping max [] blocks = [g] /\ work keccak recover (max * 20) (batch_of keccak g) = Ready (map result g) /\ g = filter has_txs blocks.
  Proof.
    intros L0 L1. pose proof (grouping_one max blocks [] ltac:(change (count []) with 0; lia)) as E. cbn [app] in E. rewrite <- filter_count in L0. destruct (filter has_txs blocks) as [|b g] eqn:Ef; [change (count []) with 0 in L0; lia|]. cbn [group_of] in E. exists (b :: g). split; [exact E|]. split; [|reflexivity]. apply (group_work keccak recover Hk Hr d c max from blocks W). rewrite E. now left.
  Qed.
  Lemma can_store_all : (forall b, In b blocks -> b_txs b <> []) -> count blocks <= max -> exists d', returns d height_from height_to kStageSuccess d' /\ stored (length blocks) d'.
  Proof.
    intros F L1. assert (L0 : 0 < count blocks). { destruct blocks as [|b l] eqn:Eb; [exfalso; exact (wc_some _ _ _ _ _ _ _ W eq_refl)|]. change (b :: l) with ([b] ++ l). rewrite count_app, count_one. pose proof (F b (or_introl eq_refl)). destruct (b_txs b); [congruence|cbn [length]; lia]. }
    destruct (one_group L0 L1) as (g & Eg & Wg & Ef). pose proof prep as P. rewrite Eg in P. cbn [map] in P. destruct (go_all keccak recover (max * 20) max_workers (map b_hash blocks) _ _ Wg) as (f1 & R1 & M1 & C1 & X).
    assert (B : bufferize (map b_hash blocks) (map result g) = Some (entries blocks (length g), skipn (length (map result g)) (map b_hash blocks))).
    { pose proof (filter_le has_txs blocks) as Lf. rewrite <- Ef in Lf. rewrite (bufferize_ok keccak recover Hk Hr) by (rewrite !map_length; exact Lf). unfold entries. rewrite <- Ef, firstn_all. reflexivity. }
    destruct (X _ _ B) as (f2 & R2 & M2). destruct (stored_all f1 f2 F _ _ P R1 M1 C1 R2 M2) as (d' & Cd & Sd). exists d'. split; [|exact Sd]. eapply returns_end; [exact P| |exact M2|exact Cd]. exact (run_trans _ _ _ _ _ _ _ _ R1 R2).
  Qed.
  (** ** What goes wrong *)
  Lemma success_without_storing : 0 < count blocks -> count blocks <= max -> returns d height_from height_to kStageSuccess d.
  Proof.
    intros L0 L1. destruct (one_group L0 L1) as (g & Eg & Wg & _). pose proof prep as P. rewrite Eg in P. cbn [map] in P. destruct (go_lost keccak recover (max * 20) max_workers (map b_hash blocks) _ _ Wg) as (f & R & M & Cl). eapply returns_end; [exact P|exact R|exact M|]. unfold conclude. now rewrite Cl.
  Qed.
  Lemma can_hang : 0 < count blocks -> count blocks <= max -> hangs keccak recover max max_workers c d height_from height_to.
  Proof.
    intros L0 L1. destruct (one_group L0 L1) as (g & Eg & _). pose proof prep as P. rewrite Eg in P. cbn [map] in P. destruct (go_stuck keccak recover (max * 20) max_workers (map b_hash blocks) (batch_of keccak g)) as (f & R & M & X). exists (map b_hash blocks), [batch_of keccak g], E_finish, f. auto.
  Qed.
  Lemma can_throw : max < count blocks -> throws keccak recover pick max max_workers c d height_from height_to.
  Proof.
    intros L. pose proof prep as P. pose proof (grouping_concat max blocks []) as Ec. pose proof (grouping_ok max blocks [] (wc_batch _ _ _ _ _ _ _ W) ltac:(unfold count; cbn; lia)) as Gk. cbn [app] in Ec. apply (f_equal count) in Ec. rewrite filter_count in Ec. pose proof (group_work keccak recover Hk Hr d c max from blocks W) as Gw.
    destruct (grouping max [] blocks) as [|g1 [|g2 gs]]; [change (count (concat [])) with 0 in Ec; lia|cbn [concat] in Ec; rewrite app_nil_r in Ec; inversion Gk as [|? ? (_ & X)]; subst; lia|]. cbn [map] in P.
    destruct (go_throw keccak recover (max * 20) max_workers (map b_hash blocks) _ (batch_of keccak g2) (map (batch_of keccak) gs) _ (Gw g1 (or_introl eq_refl))) as (f & R & M). eapply throws_running; [exact P|exact R|exact M].
  Qed.
  Lemma never_returns r d' : (1 <= max_workers)%nat -> N.of_nat max_workers * max < count blocks -> ~ returns d height_from height_to r d'.
  Proof.
    intros Lw Lc R. assert (R' := R). destruct R as [r P|hs bs e f P R M|hs bs e f r d' P R M Cl]; rewrite prep in P; [discriminate| |]; apply (f_equal (fun x => match x with Done (inr y) => y | _ => ([], ([], E_undefined)) end)) in P; apply pair_equal_spec in P as (<- & P); apply pair_equal_spec in P as (<- & <-).
    - destruct (returned _ _ R') as (X & _). discriminate.
    - destruct (too_many keccak recover Hk Hr d c max from blocks W max_workers f Lw Lc R) as (_ & _ & X). congruence.
  Qed.
  Lemma empty_block_shifts i j a b r d' : List.NoDup (map b_hash blocks) -> nth_error blocks i = Some a -> b_txs a = [] -> nth_error blocks j = Some b -> (i < j)%nat -> returns d height_from height_to r d' -> r = kStageSuccess /\ read_senders d' (b_number b) (b_hash b) = Done [].
  Proof.
    intros Nd Ea Ta Eb L R. destruct (returned r d' R) as (-> & W2 & m & Lm & S2 & _). split; [reflexivity|]. exact (read_shifted keccak recover Hk Hr d c max from blocks W d' m i j a b W2 S2 Nd Ea Ta Eb L).
  Qed.
End Final.

Section Other.
  Variable keccak : bytes -> bytes.
  Variable recover : bytes -> bytes -> bool -> option bytes.
  Variable pick : list (entry * nat) -> nat.
  (** A range that ends before the last canonical block. *)
  Lemma short_range d c max from blocks height_from height_to : waiting_chain keccak recover d c max from blocks -> from <= height_to -> height_to < from + N.of_nat (length blocks) - 1 -> prepare keccak max c d height_from height_to = Done (inl kStageBadChainSequence).
  Proof.
    intros W L0 L1. pose proof (wc_fits _ _ _ _ _ _ _ W) as Lf. pose proof (wc_positive _ _ _ _ _ _ _ W) as Lp. pose proof (wc_some _ _ _ _ _ _ _ W) as Nb. unfold prepare. rewrite (wc_progress _ _ _ _ _ _ _ W). cbn [obind]. replace (from - 1 + 1) with from by lia. rewrite (N.mod_small from) by lia.
    assert (Ef : (if (if from <? height_from then from else height_from) <=? from - 1 then from else if from <? height_from then from else height_from) = from).
    { destruct (N.ltb_spec from height_from) as [X|X]; [destruct (N.leb_spec from (from - 1)); reflexivity|]. destruct (N.leb_spec height_from (from - 1)); [reflexivity|lia]. }
    rewrite Ef. rewrite (wc_reached _ _ _ _ _ _ _ W). cbn [obind]. destruct (N.ltb_spec (from + N.of_nat (length blocks) - 1) height_to) as [X|X]; [lia|]. cbn [andb]. rewrite N.min_l by lia. destruct (N.ltb_spec height_to from) as [Y|Y]; [lia|].
    destruct (wc_canonical _ _ _ _ _ _ _ W) as (l & Ec). pose proof (wf_single d kCanonicalHashes (wc_wf _ _ _ _ _ _ _ W) eq_refl) as Oc. pose proof (wc_number _ _ _ _ _ _ _ W) as Num. pose proof (wc_hash _ _ _ _ _ _ _ W) as Lh.
    assert (Ef2 : fill_canonical_headers d from height_to = Done None).
    { unfold fill_canonical_headers. pose proof (canonical_ok blocks from 0 Lf Num Lh) as Ck. destruct blocks as [|b bl] eqn:Eb; [congruence|]. cbn [map] in Ec. rewrite (find_suffix _ l (block_key from) (b_hash b) (map (fun b => (block_key (b_number b), b_hash b)) bl) Oc); [|rewrite Ec; pose proof (Num 0%nat b eq_refl) as En; rewrite N.add_0_r in En; now rewrite En].
      cbn [map] in Ck. pose proof (Num 0%nat b eq_refl) as En. rewrite N.add_0_r in En. rewrite En in Ck. cbn iota. cbn [length Nat.eqb] in *. unfold table, entry in *. rewrite Ck. cbn [obind]. destruct (N.eqb_spec (from + N.of_nat (S (length bl)) - 1) height_to) as [Z|Z]; [lia|reflexivity]. }
    rewrite Ef2. reflexivity.
  Qed.
  (** A batch whose recovery fails. *)
  Lemma failure_success max max_workers c d height_from height_to hs b : prepare keccak max c d height_from height_to = Done (inr (hs, ([b], E_finish))) -> work keccak recover (max * 20) b = Failed ->
    returns keccak recover pick max max_workers c d height_from height_to kStageSuccess d /\ forall r d', returns keccak recover pick max max_workers c d height_from height_to r d' -> d' = d.
  Proof.
    intros P Fb. assert (H : forall f, run keccak recover (max * 20) max_workers E_finish (initial hs [b]) f -> conclude pick d f = Done (kStageSuccess, d)).
    { intros f R. unfold conclude. destruct (failed_end keccak recover (max * 20) max_workers hs b f Fb R) as [->| ->]; [|reflexivity]. destruct (f_collected f); reflexivity. }
    split.
    - destruct (go_failed keccak recover (max * 20) max_workers hs b Fb) as (f & R & M). eapply returns_end; [exact P|exact R|exact M|]. now apply H.
    - intros r d' R. destruct R as [r P2|hs2 bs e f P2 R M|hs2 bs e f r d' P2 R M Cl]; [reflexivity|reflexivity|]. rewrite P in P2. apply (f_equal (fun x => match x with Done (inr y) => y | _ => ([], ([], E_undefined)) end)) in P2. apply pair_equal_spec in P2 as (<- & P2). apply pair_equal_spec in P2 as (<- & <-). rewrite (H f R) in Cl. now apply (f_equal (fun x => match x with Done y => snd y | _ => d end)) in Cl.
  Qed.
  (** A block with more transactions than a batch has room for. *)
  Lemma too_large (Hk : forall x, length (keccak x) = 32%nat) (Hr : forall h s p k, recover h s p = Some k -> exists r, k = 4 :: r) max n txs : Forall (fun t => exists a, recover_sender keccak recover t = Some a) txs -> max < N.of_nat (length txs) -> work keccak recover (max * 20) (map (package_of keccak n) txs) = Overflow.
  Proof.
    intros F L. assert (H : forall txs off block res, Forall (fun t => exists a, recover_sender keccak recover t = Some a) txs -> off + blen block <= max * 20 -> max * 20 < off + blen block + 20 * N.of_nat (length txs) -> work_loop keccak recover (max * 20) (map (package_of keccak n) txs) n off block res = Overflow).
    { clear F L txs. induction txs as [|t txs IH]; intros off block res F L0 L; [cbn [length] in L; lia|]. inversion F as [|? ? (a & Fa) Fs]; subst. cbn [map work_loop]. change (p_block (package_of keccak n t)) with n. rewrite N.eqb_refl. destruct (address_of_package keccak recover Hk Hr n t a Fa) as (-> & La). destruct (N.ltb_spec (max * 20) (off + blen block + 20)) as [X|X]; [reflexivity|].
      cbn [length] in L. assert (Lb : blen (block ++ a) = blen block + 20) by (unfold blen; rewrite app_length, La; lia). apply IH; [exact Fs|lia|lia]. }
    unfold work. destruct txs as [|t txs]; [cbn [length] in L; lia|]. specialize (H (t :: txs) 0 [] [] F). change (blen []) with 0 in H. cbn [map] in *. change (p_block (package_of keccak n t)) with n. apply H; lia.
  Qed.
End Other.

(** ** Unwinding *)
Lemma set_progress_done d n : wf_db d -> n < 2 ^ 64 -> exists d', set_stage_progress d kSendersKey n = Done d' /\ wf_db d' /\ (forall t, t <> kSyncStageProgress -> d' t = d t) /\ get_stage_progress d' kSendersKey = Done n.
Proof.
  intros Wd L. destruct (get_after_set d kSendersKey n kSyncStageProgress kSendersKey Wd eq_refl known_senders L) as (d' & S & W' & O & G). exists d'. rewrite eqb_refl in G. auto.
Qed.
Lemma unwind_keeps d n : wf_db d -> 2 <= n -> n < 2 ^ 64 -> (forall k v, In (k, v) (d kSenders) -> k <> block_key_hash ((n + 1) mod 2 ^ 64) (repeat 0 32)) ->
  exists d', unwind_senders d n = Done d' /\ d' kSenders = d kSenders /\ (forall t, t <> kSyncStageProgress -> d' t = d t) /\ get_stage_progress d' kSendersKey = Done n.
Proof.
  intros Wd L0 L H. unfold unwind_senders. pose proof (wf_single d kSenders Wd eq_refl) as O.
  assert (E : match d kSenders with [] => [] | t => if n <=? 1 then [] else match find t (be_fixed 8 ((n + 1) mod 2 ^ 64) ++ repeat 0 32) with [] => t | p => firstn (List.length t - List.length p) t end end = d kSenders).
  { destruct (d kSenders) as [|e t] eqn:Es; [reflexivity|]. destruct (N.leb_spec n 1) as [X|X]; [lia|]. rewrite <- Es in *. destruct (find_first (d kSenders) (be_fixed 8 ((n + 1) mod 2 ^ 64) ++ repeat 0 32) (ordered_dup _ O)) as [(F & _)|(pre & w & s & E2 & _)]; [unfold table in *; now rewrite F|]. exfalso. apply (H (be_fixed 8 ((n + 1) mod 2 ^ 64) ++ repeat 0 32) w); [rewrite E2; apply in_or_app; right; now left|reflexivity]. }
  destruct (set_progress_done (set_table d kSenders (d kSenders)) n) as (d' & S & W' & O' & G); [apply set_table_wf; [exact Wd|exact O]|exact L|].
  exists d'. split; [eapply eq_trans; [|exact S]; f_equal; f_equal; exact E|]. assert (X : forall t, t <> kSyncStageProgress -> d' t = d t). { intros t Nt. rewrite O' by exact Nt. destruct (tbl_eq_dec t kSenders) as [->|Et]; [apply set_table_same|now apply set_table_other]. }
  split; [apply X; discriminate|]. split; [exact X|exact G].
Qed.
Lemma unwind_clears d n : wf_db d -> n <= 1 -> exists d', unwind_senders d n = Done d' /\ d' kSenders = [] /\ (forall t, t <> kSyncStageProgress -> t <> kSenders -> d' t = d t) /\ get_stage_progress d' kSendersKey = Done n.
Proof.
  intros Wd L. unfold unwind_senders.
  assert (E : match d kSenders with [] => [] | t => if n <=? 1 then [] else match find t (be_fixed 8 ((n + 1) mod 2 ^ 64) ++ repeat 0 32) with [] => t | p => firstn (List.length t - List.length p) t end end = []).
  { destruct (d kSenders) as [|e t]; [reflexivity|]. destruct (N.leb_spec n 1) as [X|X]; [reflexivity|lia]. }
  destruct (set_progress_done (set_table d kSenders []) n) as (d' & S & W' & O' & G); [apply set_table_wf; [exact Wd|constructor]|apply (N.le_lt_trans _ 1); [exact L|reflexivity]|].
  exists d'. split; [eapply eq_trans; [|exact S]; f_equal; f_equal; exact E|]. split; [rewrite O' by discriminate; apply set_table_same|]. split; [|exact G]. intros t N1 N2. rewrite O' by exact N1. now apply set_table_other.
Qed.
