(** The theorems about the indexing stages in their final form. *)
From Coq Require Import Permutation Sorting.Sorted.
From stdpp Require Import gmap.
From Verif Require Import Base BaseFacts DbTable DbModel DbSpec DbProofs EtlModel EtlSpec EtlProofs EtlLemmas UnwindProofs UnwindProofs2 HashStateModel HashStateProofs HashStateProofs2 BufferModel BufferProofs7 IndexModel IndexSpec IndexProofs.

Lemma collects_size es : forall c, c_size c + N.of_nat (length es) < 2 ^ 64 -> c_size (fold_left collect es c) = c_size c + N.of_nat (length es).
Proof.
  induction es as [|e es IH]; intros c H; cbn [fold_left length] in *; [lia|]. pose proof (proj1 (collect_size c e)) as E. rewrite N.mod_small in E by lia. rewrite IH; rewrite E; lia.
Qed.
Lemma prod_bound x : x < 2 ^ 32 -> x * (1950 + 28) < 2 ^ 64.
Proof. lia. Qed.
Lemma known_stages : is_known_stage kAccountHistoryKey = true /\ is_known_stage kStorageHistoryIndexKey = true /\ is_known_stage kLogIndexKey = true /\ is_known_stage kTxLookupKey = true /\ is_known_stage kBlockHashesKey = true.
Proof. vm_compute. auto. Qed.

(** From the first record of a block on *)
Lemma find_from (t : table) p : p < 2 ^ 64 -> dup_ordered t -> (forall k v, In (k, v) t -> exists n, n < 2 ^ 64 /\ k = be_fixed 8 n) ->
  (find t (be_fixed 8 p) = [] /\ forall v, ~ In (be_fixed 8 p, v) t)
  \/ ((exists v r, find t (be_fixed 8 p) = (be_fixed 8 p, v) :: r) /\ (forall e, In e (find t (be_fixed 8 p)) <-> In e t /\ lex_lt (fst e) (be_fixed 8 p) = false) /\ exists pre, t = pre ++ find t (be_fixed 8 p)).
Proof.
  intros Hp O Sh. destruct (find_first t (be_fixed 8 p) O) as [X|(pre & v & r & E & Ef & F)]; [now left|]. right. split; [exists v, r; exact Ef|]. rewrite Ef. split; [|exists pre; exact E].
  intros e. split.
  - intros I. split; [rewrite E; apply in_or_app; now right|]. destruct I as [ <- |I]; [apply lex_lt_irrefl|]. rewrite E in O. apply sorted_app in O as (_ & O & _). apply sorted_cons_inv in O as (_ & O). specialize (O e I). unfold pair_lt in O. cbn [fst snd] in O.
    destruct (lex_lt (fst e) (be_fixed 8 p)) eqn:L; [|reflexivity]. rewrite (lex_lt_asym _ _ L) in O. cbn [orb] in O. apply andb_true_iff in O as (O & _). destruct (eqb_spec (be_fixed 8 p) (fst e)) as [Ee|]; [|discriminate]. rewrite Ee in L. now rewrite lex_lt_irrefl in L.
  - intros (I & L). rewrite E in I. apply in_app_or in I as [I|I]; [|exact I]. now rewrite (F e I) in L.
Qed.

Section History.
  Variable pick : list (entry * nat) -> nat.
  Variable walk : bitmaps -> bitmaps.
  Variable size_in_bytes : bitmap -> N.
  Variable bm_write : bitmap -> bytes.
  Variable bm_read : bytes -> bitmap.
  Hypothesis Pick : least_first pick.
  Hypothesis Walk : some_order walk.
  Hypothesis Fa : faithful size_in_bytes bm_write bm_read.
  Local Notation stage := (stage_account_history pick walk size_in_bytes bm_write bm_read).

  Lemma changes_shape t : account_change_set t -> forall k v, In (k, v) t -> exists n, n < 2 ^ 64 /\ k = be_fixed 8 n.
  Proof. intros (Sh & _) k v I. destruct (Sh k v I) as (n & a & s & Hn & -> & _). exists n. split; [lia|reflexivity]. Qed.
  Lemma entry_bound es (limit : N) : limit < 2 ^ 31 -> Forall (fun e => blen (fst e) = 20 /\ blen (snd e) <= limit) es -> Forall fits es /\ total_size es <= N.of_nat (length es) * (limit + 28).
  Proof.
    intros Hl. induction es as [|e es IH]; intros F; [split; [constructor|cbn; lia]|]. apply Forall_cons_iff in F as ((F1 & F2) & F). destruct (IH F) as (I1 & I2). split; [constructor; [split; lia|exact I1]|]. cbn [total_size fold_right length]. fold (total_size es). unfold entry_size. lia.
  Qed.

  Lemma account_history_stage d p : wf_db d -> p < 2 ^ 64 -> get_stage_progress d kAccountHistoryKey = Done p ->
    account_change_set (d kPlainAccountChangeSet) -> one_chunk size_in_bytes bm_read d -> (p = 0 -> d kAccountHistory = []) ->
    (exists a, length a = 20%nat /\ account_changed d a p) ->
    exists d' m, stage d = Done (kStageSuccess, d') /\ wf_db d' /\ get_stage_progress d' kAccountHistoryKey = Done m
      /\ (exists a, length a = 20%nat /\ account_changed d a m) /\ (forall a n, account_changed d a n -> n <= m)
      /\ (forall a n, length a = 20%nat -> account_indexed bm_read d' a n <-> account_indexed bm_read d a n \/ (p <= n /\ account_changed d a n))
      /\ (forall k v, (forall a, length a = 20%nat -> k <> open_chunk a) -> In (k, v) (d' kAccountHistory) <-> In (k, v) (d kAccountHistory))
      /\ (forall t, t <> kAccountHistory -> t <> kSyncStageProgress -> d' t = d t).
  Proof.
    intros W Hp Gp Cs Oc Em (a0 & La0 & _ & s0 & I0). set (t := d kPlainAccountChangeSet) in *.
    assert (Ot : dup_ordered t) by (apply (wf_multi d kPlainAccountChangeSet W); reflexivity). assert (Oi : ordered (d kAccountHistory)) by (apply wf_single; [exact W|reflexivity]).
    destruct (find_from t p Hp Ot (changes_shape t Cs)) as [(_ & X)|((v1 & r1 & Ef) & Fi & pre & Ep)]; [exfalso; exact (X _ I0)|].
    set (q := find t (be_fixed 8 p)) in *.
    assert (Shq : rec_shape q) by (intros k v I; apply (proj1 Cs k v); now apply Fi in I as (I & _)).
    destruct (extract_ok walk size_in_bytes bm_write bm_read Walk Fa q [] 0 0 Shq ltac:(constructor)) as (es & Ee & Ge & Le & Ie).
    assert (Inq : forall a n, length a = 20%nat -> (exists s, n < 2 ^ 32 /\ In (be_fixed 8 n, a ++ s) q) <-> (p <= n /\ account_changed d a n)).
    { intros a n La. split.
      - intros (s & Hn & I). apply Fi in I as (I & L). cbn [fst] in L. split; [|split; [lia|exists s; exact I]]. destruct (N.le_gt_cases p n) as [X|X]; [exact X|]. apply (proj2 (be8_lt n p ltac:(lia) Hp)) in X. congruence.
      - intros (Hpn & Hn & s & I). exists s. destruct (proj1 Cs _ _ I) as (n' & a' & s' & Hn' & E8 & _). apply be8_inj in E8; [|exact Hn|lia]. subst n'. split; [exact Hn'|]. apply Fi. split; [exact I|]. cbn [fst]. destruct (lex_lt (be_fixed 8 n) (be_fixed 8 p)) eqn:L; [|reflexivity]. apply (proj1 (be8_lt n p Hn Hp)) in L. lia. }
    assert (Ien : forall a n, length a = 20%nat -> in_entries bm_read es a n <-> (p <= n /\ account_changed d a n)).
    { intros a n La. rewrite (Ie a n La), <- (Inq a n La). split; [intros [(b & [] & _)|X]; exact X|auto]. }
    assert (Lq : N.of_nat (length es) < 2 ^ 32).
    { cbn [length] in Le. destruct Cs as (_ & Lt). rewrite Ep, app_length in Lt. lia. }
    assert (Fe : Forall (fun e => blen (fst e) = 20 /\ blen (snd e) <= 1950) es).
    { unfold good_entries in Ge. rewrite Forall_forall in Ge |- *. intros [k v] I. destruct (Ge _ I) as (Lk & b & Eb & Nb). cbn [fst snd] in *. subst v. split; [unfold blen; lia|]. rewrite (fa_size _ _ _ Fa). apply (Oc k b Lk). intros n Hn. left. apply (Ien k n Lk). exists (bm_write b). split; [exact I|]. now rewrite (fa_read _ _ _ Fa). }
    destruct (entry_bound es 1950 ltac:(lia) Fe) as (Fits & Tot).
    assert (Ne : Forall (fun e : entry => fst e <> [] \/ snd e <> []) es).
    { apply Forall_forall. intros e I. left. rewrite Forall_forall in Fe. destruct (Fe e I) as (Lk & _). intros X. rewrite X in Lk. discriminate. }
    assert (Tot' : total_size es < 2 ^ 64) by (eapply N.le_lt_trans; [exact Tot|]; exact (prod_bound _ Lq)). destruct (load_all es Fits Ne Tot') as (l & So & Pl & Ll). destruct (Ll (512 * 2 ^ 20) pick (length es) Pick (Nat.le_refl _)) as (c' & El).
    assert (Nes : es <> []).
    { intros X. assert (Y : in_entries bm_read es a0 p) by (apply (Ien a0 p La0); split; [lia|]; split; [exact Hp|]; exists s0; exact I0). rewrite X in Y. destruct Y as (v & [] & _). }
    assert (Gl : good_entries bm_write l) by (unfold good_entries in *; rewrite Forall_forall in Ge |- *; intros e I; apply Ge; now apply (Permutation_in _ Pl)).
    assert (Il : forall a n, in_entries bm_read l a n <-> in_entries bm_read es a n).
    { intros a n. unfold in_entries. split; intros (v & I & Hn); exists v; (split; [|exact Hn]); [now apply (Permutation_in _ Pl)|now apply (Permutation_in _ (Permutation_sym Pl))]. }
    destruct (load_indexes_ok size_in_bytes bm_write bm_read Fa (fun a n => account_changed d a n \/ account_indexed bm_read d a n) (if p =? 0 then MDBX_APPEND else MDBX_UPSERT) l (d kAccountHistory) Oi So Gl) as (ti & Et & Oti & Iti & Kti).
    { intros Ef' e x I. destruct (N.eqb_spec p 0) as [ -> |]; [|discriminate]. rewrite (Em eq_refl) in I. destruct I. }
    { intros a n La [X|X]; [right; exact X|]. left. apply Il in X. now apply (Ien a n La). }
    { intros a b La Hb. exact (Oc a b La Hb). }
    set (m := last_block q 0).
    assert (Hm : (exists a, length a = 20%nat /\ account_changed d a m) /\ (forall a n, account_changed d a n -> n <= m) /\ m < 2 ^ 64).
    { assert (Sq : StronglySorted (fun a b => UnwindProofs.block_of a <= UnwindProofs.block_of b) t).
      { apply table_by_block; [exact Ot|]. intros k v I. destruct (changes_shape t Cs k v I) as (n & Hn & -> ). exists n, []. split; [now rewrite app_nil_r|exact Hn]. }
      unfold m, last_block. destruct (list.last q) as [e|] eqn:Lq'; [|apply last_None in Lq'; rewrite Ef in Lq'; discriminate]. apply last_Some in Lq' as (q' & Eq).
      assert (Iq : In e q) by (rewrite Eq; apply in_or_app; right; now left). destruct e as [k v]. destruct (Shq k v Iq) as (n & a & s & Hn & -> & La & -> ). cbn [fst].
      assert (E8 : be_to_N (firstn 8 (be_fixed 8 n)) = n) by (rewrite firstn_all2 by (rewrite be_fixed_length; lia); apply be_to_N_be_fixed_small; lia). rewrite E8.
      apply Fi in Iq as (Iq & _). split; [exists a; split; [exact La|]; split; [lia|exists s; exact Iq]|]. split; [|lia]. intros a' n' (Hn' & s' & I').
      change (In (be_fixed 8 n', a' ++ s') t) in I'. rewrite Ep, Eq, app_assoc in Sq, I'. apply sorted_app in Sq as (_ & _ & Fl). apply in_app_or in I' as [I'|[I'|[]]].
      - specialize (Fl _ _ I' (or_introl eq_refl)). rewrite !block_of_key0 in Fl by lia. exact Fl.
      - apply pair_equal_spec in I' as (I' & _). apply be8_inj in I'; lia. }
    destruct Hm as (Hm1 & Hm2 & Hm3).
    set (d1 := set_table d kAccountHistory ti). assert (W1 : wf_db d1) by (apply set_table_wf; [exact W|exact Oti]).
    exists (put d1 kSyncStageProgress kAccountHistoryKey (be_fixed 8 m)), m. split; [|split; [|split; [|split; [|split; [|split; [|split]]]]]].
    - unfold stage_account_history, history_index_stage. rewrite Gp. cbn [obind]. fold t q. rewrite Ee. cbn [obind]. rewrite collects_size by (cbn [c_size new_collector]; lia). cbn [c_size new_collector]. destruct (N.eqb_spec (0 + N.of_nat (length es)) 0) as [X|_]; [destruct es; [congruence|cbn [length] in X; lia]|].
      rewrite El. cbn [obind]. rewrite Et. cbn [obind]. unfold set_stage_progress, set_stage_data. rewrite (proj1 known_stages). reflexivity.
    - now apply put_wf.
    - unfold get_stage_progress, get_stage_data. rewrite (proj1 known_stages). cbn [negb]. rewrite lookup_put by (exact W1 || reflexivity). rewrite eqb_refl, be_fixed_length. cbn [Nat.eqb]. now rewrite be_to_N_be_fixed_small.
    - exact Hm1.
    - exact Hm2.
    - intros a n La. unfold account_indexed at 1. rewrite put_other by discriminate. unfold d1. rewrite set_table_same. rewrite <- (Ien a n La), <- Il. exact (Iti a n La).
    - intros k v Hk. rewrite put_other by discriminate. unfold d1. rewrite set_table_same. now apply Kti.
    - intros t' N1 N2. rewrite put_other by exact N2. unfold d1. now rewrite set_table_other.
  Qed.
End History.
