(** The command check_senders: final forms. *)
From Coq Require Import Strings.String Permutation Sorting.Sorted.
From Verif Require Import Base BaseFacts TxModel BlockModel ChainModel DbTable DbModel DbSpec DbProofs DbBlockProofs EtlModel EtlSpec EtlProofs EtlLemmas UnwindProofs UnwindProofs2 HashStateModel HashStateProofs HashStateProofs2 FarmModel FarmSpec FarmProofs FarmProofs2 FarmLemmas FarmFinal FarmRuns FarmCases SendersToolModel SendersToolProofs SendersToolLemmas.
Open Scope list_scope.
Open Scope N_scope.

Section Chain.
  Variable keccak : bytes -> bytes.
  Variable recover : bytes -> bytes -> bool -> option bytes.
  Hypothesis Hk : forall x, length (keccak x) = 32%nat.
  Hypothesis Hr : forall h s p k, recover h s p = Some k -> exists r, k = 4 :: r.
  Variable pick : list (entry * nat) -> nat.
  Hypothesis Pk : least_first pick.
  Variable max_workers : nat.
  Variable d d1 : database.
  Variable c : chain_config.
  Variable max from : N.
  Variable blocks : list chain_block.
  Hypothesis W : waiting_chain keccak recover d1 c max from blocks.
  Variable height_from height_to : N.
  Variable force : bool.
  Notation groups := (grouping max [] blocks).
  Notation batches := (map (batch_of keccak) groups).
  Hypothesis P : tool_prepare keccak max c d height_from height_to force = Done (d1, Some (map b_hash blocks, (batches, E_finish))).
  Notation run := (tool_run keccak recover max max_workers E_finish).
  Notation start := (initial (map b_hash blocks) batches).
  Notation fine := (fine keccak recover max (map b_hash blocks) batches).
  Notation recovers := (recovers keccak recover pick max max_workers c).

  Lemma tool_inv f : run start f -> f_stop f = false /\ exists k, fine f k.
  Proof. intros R. apply tool_invariant in R as [(_ & b & Ib & Fb)|(k & I)]; [exfalso; exact (no_failure keccak recover Hk Hr d1 c max from blocks W b Ib Fb)|]. split; [exact (t_stop _ _ _ _ _ _ _ I)|eauto]. Qed.
  Lemma tool_collected f k : fine f k -> exists m, (m <= length (filter has_txs blocks))%nat /\ f_collected f = entries blocks m /\ ((length groups <= k)%nat -> m = length (filter has_txs blocks)).
  Proof.
    intros I. destruct (t_collected _ _ _ _ _ _ _ I) as (rs & R & B). rewrite firstn_map in R. rewrite (results_groups keccak recover Hk Hr d1 c max from blocks W (firstn k groups)) in R by apply firstn_incl. injection R as <-. destruct (prefix_blocks max blocks k) as (m & Lm & Em & Fm). rewrite Em in B. pose proof (filter_le has_txs blocks).
    rewrite (bufferize_ok keccak recover Hk Hr) in B by (rewrite !map_length, firstn_length; lia). injection B as B _. exists m. split; [exact Lm|]. split; [symmetry; exact B|]. intros Lk. apply Fm. destruct (t_queue _ _ _ _ _ _ _ I) as (L & _). pose proof (t_bound _ _ _ _ _ _ _ I) as Lb. rewrite map_length in Lb. lia.
  Qed.
  (** It does not fail, whatever the interleaving. *)
  Lemma no_throw f : run start f -> f_main f <> M_throw /\ f_main f <> M_bad_sequence.
  Proof.
    intros R. remember start as f0 eqn:E0. revert E0. induction R as [f|f f1 f2 R IH St|f f1 f2 i R IH St]; intros E0.
    - rewrite E0. split; discriminate.
    - destruct (IH E0) as (N1 & N2). rewrite E0 in R. destruct (tool_inv f1 R) as (S1 & k & I). destruct St as [f1 f2 Nb St|f1 f2 b todo M Rd|f1 f2 b todo M Rd|f1 f2 b todo M Rd].
      + destruct St as [f1 b todo M S0|f1 b todo M S0|f1 M|f1 b todo i w M|f1 b todo i M|f1 b todo M|f1 b todo M|f1 f' b todo M Rd|f1 f' b todo M Rd|f1 f' b todo M Rd|f1 i M|f1 M|f1 f' M Rd|f1 f' r M Rd]; try (exfalso; exact (Nb _ _ M)); cbn [at_main f_main]; try (split; discriminate); try (split; assumption); [congruence|].
        inversion Rd; subst; cbn; rewrite ?M; split; discriminate.
      + inversion Rd; subst; cbn; rewrite ?M; split; discriminate.
      + split; discriminate.
      + destruct (steps_round _ _ _ _ _ _ _ _ _ I Rd) as [(_ & _ & b' & Ib & Fb)|[(X & _)|(X & _)]]; [exfalso; exact (no_failure keccak recover Hk Hr d1 c max from blocks W b' Ib Fb)|discriminate|discriminate].
    - destruct (IH E0) as (N1 & N2). destruct St; cbn; split; assumption.
  Qed.
  Lemma same_prepared d2 hs bs e : tool_prepare keccak max c d height_from height_to force = Done (d2, Some (hs, (bs, e))) -> d2 = d1 /\ hs = map b_hash blocks /\ bs = batches /\ e = E_finish.
  Proof.
    intros Q. rewrite P in Q. apply (f_equal (fun x => match x with Done (y, Some z) => (y, z) | _ => (d1, ([], ([], E_undefined))) end)) in Q. apply pair_equal_spec in Q as (E1 & Q). apply pair_equal_spec in Q as (E2 & Q). apply pair_equal_spec in Q as (E3 & E4). auto.
  Qed.
  Lemma tool_ended dry ok r : recovers d height_from height_to force dry ok r -> ok = true /\ exists d' m, r = (if dry then None else Some d') /\ wf_db d' /\ (m <= length (filter has_txs blocks))%nat /\ d' kSenders = d1 kSenders ++ entries blocks m /\ (forall t, t <> kSenders -> t <> kSyncStageProgress -> d' t = d1 t)
    /\ (forall name, get_stage_progress d' name = if bytes_eqb kSendersKey name then Done (reached from blocks m) else get_stage_progress d1 name).
  Proof.
    intros R. destruct R as [d2 Q|Q|d2 hs bs e f Q R M|d2 hs bs e f Q R M Cl|d2 hs bs e f r d' Q R M Cl]; try (rewrite P in Q; discriminate); apply same_prepared in Q as (-> & -> & -> & ->).
    - exfalso. destruct (no_throw f R) as (N1 & N2). destruct M; contradiction.
    - exfalso. destruct (tool_inv f R) as (Sf & k & I). destruct (tool_collected f k I) as (m & Lm & Cm & _). destruct (conclude_ok keccak recover Hk Hr d1 c max from blocks W pick Pk f m Lm Sf Cm) as (d2 & E2 & _). rewrite E2 in Cl. discriminate.
    - split; [reflexivity|]. destruct (tool_inv f R) as (Sf & k & I). destruct (tool_collected f k I) as (m & Lm & Cm & _). destruct (conclude_ok keccak recover Hk Hr d1 c max from blocks W pick Pk f m Lm Sf Cm) as (d2 & E2 & W2 & S2 & O2 & P2).
      rewrite E2 in Cl. apply (f_equal (fun x => match x with Done y => y | _ => (kStageSuccess, d) end)) in Cl. apply pair_equal_spec in Cl as (_ & <-). exists d2, m. auto 10.
  Qed.
  Lemma tool_prefix dry ok r : (forall b, In b blocks -> b_txs b <> []) -> recovers d height_from height_to force dry ok r -> ok = true /\ exists d' m, r = (if dry then None else Some d') /\ (m <= length blocks)%nat /\ senders_stored d1 from blocks m d'.
  Proof.
    intros F R. destruct (tool_ended dry ok r R) as (-> & d' & m & -> & W2 & Lm & S2 & O2 & P2). split; [reflexivity|]. exists d', m. split; [reflexivity|]. destruct (entries_full blocks m F) as (_ & Ef). rewrite Ef in Lm. split; [exact Lm|]. exact (stored_from keccak recover Hk Hr d1 c max from blocks W _ (N.le_refl _) m d' F Lm W2 S2 O2 P2).
  Qed.
  Lemma tool_all f1 f2 : run start f1 -> f_main f1 = M_last -> f_completed f1 = length batches -> run f1 f2 -> f_main f2 = M_end -> exists k, fine f2 k /\ (length groups <= k)%nat.
  Proof.
    intros R1 M1 C1 R2 M2. destruct (tool_inv f1 R1) as (_ & k1 & I1).
    assert (H : exists k, fine f2 k /\ f_completed f2 = length batches /\ (f_main f2 = M_last \/ f_main f2 = M_undefined \/ (f_main f2 = M_end /\ (length groups <= k)%nat))).
    { clear M2. induction R2 as [f|f f1 f2 R IH St|f f1 f2 i R IH St].
      - exists k1. auto.
      - destruct (IH R1 M1 C1 I1) as (k & I & C & M). destruct St as [f1 f2 Nb St|f1 f2 b todo M0 Rd|f1 f2 b todo M0 Rd|f1 f2 b todo M0 Rd]; try (destruct M as [M|[M|(M & _)]]; congruence).
        destruct St; rewrite ?H in *; try (destruct M as [M|[M|(M & _)]]; congruence).
        + destruct (steps_round _ _ _ _ _ _ _ _ _ I H0) as [(_ & X & _)|[(X & _)|(_ & k' & I')]]; [discriminate|discriminate|]. exists k'. split; [exact I'|]. assert (Eq : f_completed f' = f_completed f0 /\ (f_main f' = f_main f0 \/ f_main f' = M_undefined)) by (destruct H0; cbn; auto). destruct Eq as (-> & Em). split; [exact C|]. destruct Em as [->| ->]; auto.
        + destruct (steps_round _ _ _ _ _ _ _ _ _ I H0) as [(_ & _ & b & Ib & Fb)|[(_ & -> & Ek)|(X & _)]]; [exfalso; exact (no_failure keccak recover Hk Hr d1 c max from blocks W b Ib Fb)| |discriminate]. exists k. split; [apply fine_at_main; [exact I|exact Logic.I]|]. cbn [at_main f_completed f_main]. split; [exact C|]. right. right. split; [reflexivity|]. rewrite Ek, C, map_length. lia.
      - destruct (IH R1 M1 C1 I1) as (k & I & C & M). exists k. pose proof (steps_worker _ _ _ _ _ _ _ _ _ I St) as I'. split; [exact I'|]. assert (Em : f_main f2 = f_main f1 /\ (f_completed f1 <= f_completed f2)%nat) by (destruct St; cbn; auto). destruct Em as (Em & Lc). rewrite Em. split; [|exact M].
        pose proof (t_bound _ _ _ _ _ _ _ I'). lia. }
    destruct H as (k & I & _ & [M|[M|(_ & Lk)]]); [congruence|congruence|]. eauto.
  Qed.
  Lemma tool_stored_all f1 f dry : (forall b, In b blocks -> b_txs b <> []) -> run start f1 -> f_main f1 = M_last -> f_completed f1 = length batches -> run f1 f -> f_main f = M_end ->
    exists d', recovers d height_from height_to force dry true (if dry then None else Some d') /\ senders_stored d1 from blocks (length blocks) d' /\ conclude pick d1 f = Done (kStageSuccess, d').
  Proof.
    intros F R1 M1 C1 R2 M2. destruct (tool_all f1 f R1 M1 C1 R2 M2) as (k & I & Lk). destruct (tool_collected f k I) as (m & Lm & Cm & Fm). specialize (Fm Lk). destruct (entries_full blocks m F) as (_ & Ef). rewrite Ef in Lm, Fm. subst m.
    destruct (conclude_ok keccak recover Hk Hr d1 c max from blocks W pick Pk f (length blocks) ltac:(rewrite Ef; lia) (t_stop _ _ _ _ _ _ _ I) Cm) as (d2 & E2 & W2 & S2 & O2 & P2). exists d2.
    split; [eapply rec_ends; [exact P|exact (tool_trans _ _ _ _ _ _ _ R1 R2)|exact M2|exact E2]|]. split; [|exact E2]. exact (stored_from keccak recover Hk Hr d1 c max from blocks W _ (N.le_refl _) (length blocks) d2 F (Nat.le_refl _) W2 S2 O2 P2).
  Qed.
  (** Any number of batches. *)
  Lemma tool_can_store dry : (forall b, In b blocks -> b_txs b <> []) -> exists d', recovers d height_from height_to force dry true (if dry then None else Some d') /\ senders_stored d1 from blocks (length blocks) d'.
  Proof.
    intros F. assert (Ng : groups <> []). { intros E. pose proof (grouping_concat max blocks []) as X. rewrite E in X. cbn [concat app] in X. destruct (entries_full blocks 0 F) as (_ & Ef). rewrite Ef in X. exact (wc_some _ _ _ _ _ _ _ W (eq_sym X)). }
    pose proof (results_groups keccak recover Hk Hr d1 c max from blocks W groups (incl_refl _)) as Rs. rewrite grouping_concat in Rs. cbn [app] in Rs. pose proof (filter_le has_txs blocks) as Lf.
    assert (B : exists es hs, bufferize (map b_hash blocks) (map result (filter has_txs blocks)) = Some (es, hs)) by (rewrite (bufferize_ok keccak recover Hk Hr) by (rewrite !map_length; exact Lf); eauto). destruct B as (es & hs & B).
    assert (Go : exists f1 f2, run start f1 /\ f_main f1 = M_last /\ f_completed f1 = length batches /\ run f1 f2 /\ f_main f2 = M_end).
    { destruct batches as [|b todo] eqn:Eb; [exfalso; apply Ng; now apply map_eq_nil in Eb|]. destruct (t_every keccak recover max max_workers todo 0 0 (map b_hash blocks) [] b _ _ _ Rs B) as (f1 & f2 & R1 & M1 & C1 & R2 & M2). exists f1, f2. split; [exact (tool_trans _ _ _ _ _ _ _ (t_waits _ _ _ _ _ _ _) R1)|]. auto. }
    destruct Go as (f1 & f2 & R1 & M1 & C1 & R2 & M2). destruct (tool_stored_all f1 f2 dry F R1 M1 C1 R2 M2) as (d' & X & Y & _). eauto.
  Qed.
  (** ** What goes wrong *)
  Lemma one_batch : 0 < count blocks -> count blocks <= max -> exists b rs, batches = [b] /\ work keccak recover (max * 20) b = Ready rs.
  Proof. intros L0 L1. destruct (one_group keccak recover Hk Hr d1 c max from blocks W _ (N.le_refl _) L0 L1) as (g & Eg & Wg & _). rewrite Eg. cbn [map]. eauto. Qed.
  Lemma tool_lost : 0 < count blocks -> count blocks <= max -> recovers d height_from height_to force false true (Some d1).
  Proof.
    intros L0 L1. destruct (one_batch L0 L1) as (b & rs & Eb & Wb). destruct (t_lost keccak recover max max_workers (map b_hash blocks) b rs Wb) as (f & R & M & C). rewrite <- Eb in R. eapply (rec_ends _ _ _ _ _ _ _ _ _ _ false _ _ _ _ f kStageSuccess d1); [exact P|exact R|exact M|]. unfold conclude. now rewrite C.
  Qed.
  Lemma tool_hangs : 0 < count blocks -> count blocks <= max -> waits_forever keccak recover max max_workers c d height_from height_to force.
  Proof.
    intros L0 L1. destruct (one_batch L0 L1) as (b & rs & Eb & Wb). destruct (t_stuck keccak recover max max_workers (map b_hash blocks) b) as (f & R & M & X). rewrite <- Eb in R. exists d1, (map b_hash blocks), batches, E_finish, f. auto.
  Qed.
  Lemma tool_wild : max < count blocks -> runs_wild keccak recover max max_workers c d height_from height_to force.
  Proof.
    intros L. pose proof (grouping_concat max blocks []) as Ec. pose proof (grouping_ok max blocks [] (wc_batch _ _ _ _ _ _ _ W) ltac:(unfold count; cbn; lia)) as Gk. cbn [app] in Ec. pose proof (f_equal count Ec) as Ec2. rewrite filter_count in Ec2. pose proof (group_work keccak recover Hk Hr d1 c max from blocks W) as Gw. pose proof P as Q.
    destruct groups as [|g1 [|g2 gs]]; [change (count (concat [])) with 0 in Ec2; lia|cbn [concat] in Ec2; rewrite app_nil_r in Ec2; inversion Gk as [|? ? (_ & X)]; subst; lia|]. cbn [map] in Q.
    pose proof (filter_le has_txs blocks) as Lf. assert (Lg : (length g1 <= length blocks)%nat) by (rewrite <- Ec in Lf; cbn [concat] in Lf; rewrite app_length in Lf; lia).
    assert (B : exists es hs, bufferize (map b_hash blocks) (map result g1) = Some (es, hs)) by (rewrite (bufferize_ok keccak recover Hk Hr) by (rewrite !map_length; exact Lg); eauto). destruct B as (es & hs & B).
    destruct (t_race keccak recover max max_workers (map b_hash blocks) _ (batch_of keccak g2) (map (batch_of keccak) gs) _ es hs (Gw g1 (or_introl eq_refl)) B) as (f & w & R & I & X). exists d1, (map b_hash blocks), (batch_of keccak g1 :: batch_of keccak g2 :: map (batch_of keccak) gs), E_finish, f, w. auto.
  Qed.
  Lemma tool_shifts i j a b ok d' : List.NoDup (map b_hash blocks) -> nth_error blocks i = Some a -> b_txs a = [] -> nth_error blocks j = Some b -> (i < j)%nat -> recovers d height_from height_to force false ok (Some d') -> ok = true /\ read_senders d' (b_number b) (b_hash b) = Done [].
  Proof.
    intros Nd Ea Ta Eb L R. destruct (tool_ended false ok _ R) as (-> & d2 & m & E & W2 & Lm & S2 & _). split; [reflexivity|]. apply (f_equal (fun x => match x with Some y => y | None => d1 end)) in E. cbn in E. subst d2. exact (read_shifted keccak recover Hk Hr d1 c max from blocks W d' m i j a b W2 S2 Nd Ea Ta Eb L).
  Qed.
End Chain.

(** ** A recovery that fails *)
Lemma tool_failure keccak recover pick max max_workers c d d1 height_from height_to force hs b : tool_prepare keccak max c d height_from height_to force = Done (d1, Some (hs, ([b], E_finish))) -> work keccak recover (max * 20) b = Failed ->
  recovers keccak recover pick max max_workers c d height_from height_to force false true (Some d1) /\ forall ok r, recovers keccak recover pick max max_workers c d height_from height_to force false ok r -> r = None \/ r = Some d1.
Proof.
  intros P Fb. assert (H : forall f, tool_run keccak recover max max_workers E_finish (initial hs [b]) f -> conclude pick d1 f = Done (kStageSuccess, d1)).
  { intros f R. unfold conclude. destruct (t_failed_end keccak recover max max_workers hs b f Fb R) as [->| ->]; [|reflexivity]. destruct (f_collected f); reflexivity. }
  split.
  - destruct (t_failed keccak recover max max_workers hs b Fb) as (f & R & M). eapply (rec_ends _ _ _ _ _ _ _ _ _ _ false _ _ _ _ f kStageSuccess d1); [exact P|exact R|exact M|]. now apply H.
  - intros ok r R. destruct R as [d2 Q|Q|d2 hs2 bs e f Q R M|d2 hs2 bs e f Q R M Cl|d2 hs2 bs e f r d' Q R M Cl]; try (left; reflexivity). right. rewrite P in Q. apply (f_equal (fun x => match x with Done (y, Some z) => (y, z) | _ => (d1, ([], ([], E_undefined))) end)) in Q. apply pair_equal_spec in Q as (<- & Q). apply pair_equal_spec in Q as (<- & Q). apply pair_equal_spec in Q as (<- & <-).
    rewrite (H f R) in Cl. apply (f_equal (fun x => match x with Done y => snd y | _ => d1 end)) in Cl. cbn [snd] in Cl. now subst d'.
Qed.

(** ** Unwinding *)
Definition entry_number (e : entry) : N := be_to_N (firstn 8 (fst e)).
Lemma key_no n h : n < 2 ^ 64 -> be_to_N (firstn 8 (block_key_hash n h)) = n.
Proof. intros L. unfold block_key_hash, block_key. rewrite firstn_app, be_fixed_length, Nat.sub_diag, firstn_O, app_nil_r, firstn_all2 by (rewrite be_fixed_length; lia). apply be_to_N_be_fixed_small. exact L. Qed.
Lemma zeros_least q : forall h, length h = q -> lex_lt h (repeat 0 q) = false.
Proof. induction q as [|q IH]; intros [|x h] L; try discriminate; [reflexivity|]. cbn [repeat lex_lt]. destruct (N.ltb_spec x 0); [lia|]. destruct (0 <? x); [reflexivity|]. apply IH. now injection L. Qed.
Lemma before_bound (t : table) n : ordered t -> n + 1 < 2 ^ 64 -> (forall k v, In (k, v) t -> exists m h, k = block_key_hash m h /\ m < 2 ^ 64 /\ length h = 32%nat) ->
  firstn (length t - length (lower_bound t (be_fixed 8 ((n + 1) mod 2 ^ 64) ++ repeat 0 32))) t = filter (fun e => entry_number e <=? n) t.
Proof.
  intros O L K. rewrite N.mod_small by exact L. change (be_fixed 8 (n + 1) ++ repeat 0 32) with (block_key_hash (n + 1) (repeat 0 32)). set (k := block_key_hash (n + 1) (repeat 0 32)).
  assert (N0 : forall e, In e t -> lex_lt (fst e) k = (fun e => entry_number e <=? n) e).
  { cbv beta. intros (kk, v) I. destruct (K kk v I) as (m & h & -> & Lm & Lh). unfold entry_number. cbn [fst]. rewrite key_no by exact Lm. unfold k. apply eq_true_iff_eq. rewrite (block_key_hash_lt m (n + 1) h (repeat 0 32) Lm L), N.leb_le. split; [|intros X; left; lia]. intros [X|(_ & X)]; [lia|]. rewrite (zeros_least 32 h Lh) in X. discriminate. }
  clear K L. clearbody k. revert O N0. generalize (fun e => entry_number e <=? n). intros p O N0.
  assert (S : lower_bound t k = filter (fun e => negb (p e)) t /\ firstn (length t - length (lower_bound t k)) t = filter p t); [|exact (proj2 S)].
  induction t as [|e t IH]; [split; reflexivity|]. apply sorted_cons_inv in O as (O & Oe). assert (N1 : forall x, In x t -> lex_lt (fst x) k = p x) by (intros x I; apply N0; now right). pose proof (N0 e (or_introl eq_refl)) as Ne. destruct (IH O N1) as (A & B). cbn [lower_bound filter]. rewrite Ne. destruct (p e) eqn:Pe; cbn [negb].
  - split; [exact A|]. cbn [length]. assert (Ls : (length (lower_bound t k) <= length t)%nat) by (rewrite A; apply filter_le). replace (S (length t) - length (lower_bound t k))%nat with (S (length t - length (lower_bound t k))) by lia. cbn [firstn]. now rewrite B.
  - assert (All : forall x, In x t -> p x = false).
    { intros x I. rewrite <- N1 by exact I. destruct (lex_lt (fst x) k) eqn:X; [|reflexivity]. pose proof (Oe x I) as Y. rewrite (lex_lt_trans _ _ _ Y X) in Ne. discriminate. }
    assert (E1 : filter p t = [] /\ filter (fun e => negb (p e)) t = t).
    { clear - All. induction t as [|x t IH]; [split; reflexivity|]. cbn [filter]. rewrite (All x (or_introl eq_refl)). cbn [negb]. destruct IH as (A & B); [intros y I; apply All; now right|]. rewrite A, B. split; reflexivity. }
    destruct E1 as (E1 & E2). rewrite E1, E2. split; [reflexivity|]. now rewrite Nat.sub_diag.
Qed.
Lemma tool_unwind_keeps d n : wf_db d -> 2 <= n -> n + 1 < 2 ^ 64 -> (forall k v, In (k, v) (d kSenders) -> exists m h, k = block_key_hash m h /\ m < 2 ^ 64 /\ length h = 32%nat) ->
  exists d', tool_unwind d n = Done d' /\ wf_db d' /\ d' kSenders = filter (fun e => entry_number e <=? n) (d kSenders) /\ (forall t, t <> kSenders -> t <> kSyncStageProgress -> d' t = d t) /\ (forall name, get_stage_progress d' name = if bytes_eqb kSendersKey name then Done n else get_stage_progress d name).
Proof.
  intros Wd L0 L K. pose proof (wf_single d kSenders Wd eq_refl) as O.
  assert (E : match d kSenders with [] => [] | t => if n <=? 1 then [] else firstn (List.length t - List.length (lower_bound t (be_fixed 8 ((n + 1) mod 2 ^ 64) ++ repeat 0 32))) t end = filter (fun e => entry_number e <=? n) (d kSenders)).
  { rewrite <- before_bound by assumption. destruct (d kSenders) as [|e t]; [reflexivity|]. destruct (N.leb_spec n 1); [lia|reflexivity]. }
  assert (Of : ordered (filter (fun e => entry_number e <=? n) (d kSenders))).
  { clear - O. induction O as [|e t O IH F]; [constructor|]. cbn [filter]. destruct (entry_number e <=? n); [|exact IH]. constructor; [exact IH|]. rewrite Forall_forall in *. intros x I. apply F. now apply filter_In in I as (I & _). }
  assert (Ws : wf_db (set_table d kSenders (filter (fun e => entry_number e <=? n) (d kSenders)))) by (apply set_table_wf; [exact Wd|exact Of]).
  destruct (set_progress_done _ n Ws ltac:(lia)) as (d' & S & W' & O' & _). exists d'. split; [unfold tool_unwind; eapply eq_trans; [|exact S]; f_equal; f_equal; exact E|]. split; [exact W'|]. split; [rewrite O' by discriminate; apply set_table_same|]. split; [intros t N1 N2; rewrite O' by exact N2; now apply set_table_other|].
  intros name. destruct (get_after_set _ kSendersKey n kSyncStageProgress name Ws eq_refl known_senders ltac:(lia)) as (d2 & S2 & _ & _ & G). unfold set_stage_progress in S. rewrite S in S2. injection S2 as <-. unfold get_stage_progress at 1. rewrite G. destruct (bytes_eqb kSendersKey name); [reflexivity|]. unfold get_stage_progress, get_stage_data. rewrite set_table_other by discriminate. reflexivity.
Qed.
Lemma tool_unwind_clears d n : wf_db d -> n <= 1 -> exists d', tool_unwind d n = Done d' /\ wf_db d' /\ d' kSenders = [] /\ (forall t, t <> kSenders -> t <> kSyncStageProgress -> d' t = d t) /\ get_stage_progress d' kSendersKey = Done n.
Proof.
  intros Wd L. unfold tool_unwind.
  assert (E : match d kSenders with [] => [] | t => if n <=? 1 then [] else firstn (List.length t - List.length (lower_bound t (be_fixed 8 ((n + 1) mod 2 ^ 64) ++ repeat 0 32))) t end = []).
  { destruct (d kSenders) as [|e t]; [reflexivity|]. destruct (N.leb_spec n 1) as [X|X]; [reflexivity|lia]. }
  destruct (set_progress_done (set_table d kSenders []) n) as (d' & S & W' & O' & G); [apply set_table_wf; [exact Wd|constructor]|apply (N.le_lt_trans _ 1); [exact L|reflexivity]|].
  exists d'. split; [eapply eq_trans; [|exact S]; f_equal; f_equal; exact E|]. split; [exact W'|]. split; [rewrite O' by discriminate; apply set_table_same|]. split; [|exact G]. intros t N1 N2. rewrite O' by exact N2. now apply set_table_other.
Qed.
