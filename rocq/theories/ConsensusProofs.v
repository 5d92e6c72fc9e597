(** Proofs about the runner of the consensus tests: the check of the final state. *)
From stdpp Require Import gmap.
From Verif Require Import Base BaseFacts RlpModel RlpProofs TypesModel UtilModel UtilSpec UtilProofs DbModel MemBufModel StateModel WasmSpec WasmProofs ConsensusSpec ConsensusModel.
Open Scope list_scope.
Open Scope N_scope.

Lemma hex_string_wf s b : hex_string s b -> wf_bytes b.
Proof. induction 1 as [|c1 c2 d1 d2 s b H1 H2 _ IH]; [constructor|]. constructor; [|exact IH]. unfold wf_byte. destruct H1 as [(?&_)|(?&_)], H2 as [(?&_)|(?&_)]; lia. Qed.
Lemma hex_wf s b : hex_denotes s b -> wf_bytes b.
Proof. intros [H|(t & _ & H)]; exact (hex_string_wf _ _ H). Qed.
Lemma hex_value s b : hex_denotes s b -> value (from_hex s) = Done b.
Proof. intros H. apply from_hex_spec in H. now rewrite H. Qed.
Lemma hex_one s b c : hex_denotes s b -> hex_denotes s c -> b = c.
Proof. intros H1 H2. apply from_hex_spec in H1, H2. congruence. Qed.
Lemma number_one n s x y : says_number n s x -> says_number n s y -> x = y.
Proof. intros (b & H & _ & ->) (c & H' & _ & ->). now rewrite (hex_one _ _ _ H H'). Qed.
Lemma address_one s x y : says_address s x -> says_address s y -> x = y.
Proof. intros (b & H & _ & ->) (c & H' & _ & ->). now rewrite (hex_one _ _ _ H H'). Qed.
Lemma number_word s x : says_number 32 s x -> exists b, value (from_hex s) = Done b /\ be_to_N (to_bytes32 b) = x /\ to_bytes32 b = be_fixed 32 x /\ x < 2 ^ 256.
Proof.
  intros (b & H & L & ->). exists b. split; [now apply hex_value|]. unfold to_bytes32. rewrite (to_fixed_short 32 b L).
  pose proof (hex_wf _ _ H) as W. assert (Wz : wf_bytes (zeros (32 - length b) ++ b)) by (apply Forall_app; split; [|exact W]; apply List.Forall_forall; intros y I; apply repeat_spec in I; subst; red; lia).
  assert (Ll : length (zeros (32 - length b) ++ b) = 32%nat) by (unfold zeros; rewrite app_length, repeat_length; lia).
  rewrite be_to_N_zeros. split; [reflexivity|]. split.
  - rewrite <- (be_fixed_be_to_N _ Wz) at 1. now rewrite Ll, be_to_N_zeros.
  - pose proof (be_to_N_bound _ Wz) as B. rewrite be_to_N_zeros in B. unfold blen in B. rewrite Ll in B. change (256 ^ N.of_nat 32) with (2 ^ 256) in B. exact B.
Qed.
Lemma number_read n s x : says_number n s x -> exists b, value (from_hex s) = Done b /\ check_rlp_err (read_uint n b true) = Done x.
Proof.
  intros (b & H & L & ->). exists b. split; [now apply hex_value|]. unfold read_uint. replace (N.of_nat n <? blen b) with false by (symmetry; apply N.ltb_ge; unfold blen; lia).
  destruct b as [|y b]; [reflexivity|]. cbn [at0 RlpModel.bind]. rewrite andb_false_r. cbn [check_rlp_err]. now rewrite be_to_N_zeros.
Qed.
Lemma address_read s a : says_address s a -> exists b, value (from_hex s) = Done b /\ be_to_N (to_address b) = a.
Proof. intros (b & H & L & ->). exists b. split; [now apply hex_value|]. unfold to_address. rewrite (to_fixed_long 20 b) by lia. now rewrite firstn_all2 by lia. Qed.

(** A list of different keys of a map is as long as the map is large exactly when it has all of them. *)
Lemma cover {K A} `{Countable K} (m : gmap K A) l : List.NoDup l -> (forall k, In k l -> is_Some (m !! k)) -> size m = length l <-> forall k, is_Some (m !! k) -> In k l.
Proof.
  intros Nd I. set (all := map fst (map_to_list m)).
  assert (E : lists all (fun k => is_Some (m !! k))).
  { split; [apply NoDup_fst_map_to_list|]. intros k. unfold all. rewrite in_map_iff. split.
    - intros ([k' x] & <- & J). apply elem_of_list_In, elem_of_map_to_list in J. now exists x.
    - intros (x & J). exists (k, x). split; [reflexivity|]. apply elem_of_list_In. now apply elem_of_map_to_list. }
  pose proof (list_size m all E) as Sz. destruct E as (Na & E). split.
  - intros Q k J. apply (NoDup_length_incl Nd (l' := all)); [lia| |now apply E]. intros k' J'. apply E. now apply I.
  - intros C. symmetry. apply list_size. split; [now apply NoDup_ListNoDup|]. intros k. split; [apply I|apply C].
Qed.
Lemma forall2_fst {A} (says : bytes -> N -> Prop) (l : list (bytes * A)) xs : Forall2 says (map fst l) xs ->
  (forall s e, In (s, e) l -> exists x, In x xs /\ says s x) /\ (forall x, In x xs -> exists s e, In (s, e) l /\ says s x) /\ length xs = length l.
Proof.
  revert xs. induction l as [|[s e] l IH]; intros xs F; cbn [map fst] in F; inversion F as [|? x ? xs' Hx Hr]; subst; cbn [length].
  - repeat split; [intros ? ? []|intros ? []].
  - destruct (IH _ Hr) as (A1 & A2 & A3). repeat split; [| |lia].
    + intros s' e' [E|I]; [injection E as <- <-; exists x; split; [now left|exact Hx]|]. destruct (A1 _ _ I) as (y & I' & H). exists y. split; [now right|exact H].
    + intros y [<-|I]; [exists s, e; split; [now left|exact Hx]|]. destruct (A2 _ I) as (s' & e' & I' & H). exists s', e'. split; [now right|exact H].
Qed.

Definition reads (m : membuf) : readable := mkReadable (fun a => m_accounts m !! a) (fun h => default [] (m_code m !! h)) (fun a i l => default 0 (m_storage m !! (a, i, l))).
Definition slots_ok (m : membuf) : Prop := forall k v, m_storage m !! k = Some v -> v <> 0 /\ v < 2 ^ 256.

Section Check.
  Variable m : membuf.
  Hypothesis S : slots_ok m.
  Lemma slot_small a i l : default 0 (m_storage m !! (a, i, l)) < 2 ^ 256.
  Proof. destruct (m_storage m !! (a, i, l)) as [v|] eqn:E; cbn; [exact (proj2 (S _ _ E))|lia]. Qed.
  Lemma slots_checked a i st : (forall s v, In (s, v) st -> (exists l, says_number 32 s l) /\ exists w, says_number 32 v w) ->
    exists b, check_slots m a i st = Done b /\ (b = true <-> forall s v l w, In (s, v) st -> says_number 32 s l -> says_number 32 v w -> default 0 (m_storage m !! (a, i, l)) = w).
  Proof.
    induction st as [|[s v] st IH]; intros F; [exists true; split; [reflexivity|]; split; [intros _ ? ? ? ? []|reflexivity]|].
    destruct (F s v (or_introl eq_refl)) as ((l & Hl) & w & Hw). destruct (number_word _ _ Hl) as (bl & El & Vl & _). destruct (number_word _ _ Hw) as (bw & Ew & _ & Vw & Bw).
    cbn [check_slots]. rewrite El, Ew. cbn [obind]. rewrite Vl, Vw. cbn [read_storage mem_reader].
    destruct (bytes_eqb _ _) eqn:Q; cbn [negb].
    - apply bytes_eqb_eq in Q. apply be_fixed_inj in Q; [|apply slot_small|exact Bw]. destruct IH as (b & E & R); [intros; apply F; now right|]. exists b. split; [exact E|]. rewrite R. split.
      + intros G s' v' l' w' [I|I] H1 H2; [|now apply (G s' v')]. injection I as <- <-. now rewrite (number_one _ _ _ _ H1 Hl), (number_one _ _ _ _ H2 Hw).
      + intros G s' v' l' w' I. apply G. now right.
    - exists false. split; [reflexivity|]. split; [discriminate|]. intros G. exfalso. pose proof (G s v l w (or_introl eq_refl) Hl Hw) as X. rewrite X in Q. assert (T : bytes_eqb (be_fixed 32 w) (be_fixed 32 w) = true) by now apply bytes_eqb_eq. congruence.
  Qed.
  Lemma storage_counted a i st : distinct (says_number 32) (map fst st) ->
    (forall s v, In (s, v) st -> exists l w, says_number 32 s l /\ says_number 32 v w /\ w <> 0 /\ default 0 (m_storage m !! (a, i, l)) = w) ->
    storage_size m a i = length st <-> forall l, default 0 (m_storage m !! (a, i, l)) <> 0 -> exists s v, In (s, v) st /\ says_number 32 s l.
  Proof.
    intros (xs & F2 & Nd) V. destruct (forall2_fst _ _ _ F2) as (A1 & A2 & A3). unfold storage_size.
    rewrite <- A3, <- (map_length (fun l => (a, i, l)) xs). rewrite (cover _ (map (fun l => (a, i, l)) xs)).
    - split.
      + intros C l H. destruct (m_storage m !! (a, i, l)) as [v|] eqn:E; [|now cbn in H]. assert (I : In (a, i, l) (map (fun l => (a, i, l)) xs)) by (apply C; exists v; apply map_filter_lookup_Some; now split).
        apply in_map_iff in I as (l' & [= ->] & I). now apply A2.
      + intros C [[a' i'] l] (v & E). apply map_filter_lookup_Some in E as (E & Ek). cbn [fst] in Ek. injection Ek as -> ->. apply in_map_iff. exists l. split; [reflexivity|].
        destruct (C l) as (s & v' & I & Hs); [rewrite E; exact (proj1 (S _ _ E))|]. destruct (A1 _ _ I) as (x & Ix & Hx). now rewrite (number_one _ _ _ _ Hs Hx).
    - apply FinFun.Injective_map_NoDup; [intros x y [= ->]; reflexivity|exact Nd].
    - intros k I. apply in_map_iff in I as (l & <- & I). destruct (A2 _ I) as (s & v & Is & Hs). destruct (V _ _ Is) as (l' & w & H1 & _ & H3 & H4). rewrite (number_one _ _ _ _ H1 Hs) in H4.
      destruct (m_storage m !! (a, i, l)) as [u|] eqn:E; [|cbn in H4; congruence]. exists u. apply map_filter_lookup_Some. now split.
  Qed.
  Lemma entry_checked s a e : says_address s a -> account_ok e -> exists b, check_entry m s e = Done b /\ (b = true <-> account_described (reads m) a e).
  Proof.
    intros Ha ((bal & Hb) & (non & Hn) & (code & Hc) & D & V). destruct (address_read _ _ Ha) as (ba & Ea & Va). unfold check_entry. rewrite Ea. cbn [obind]. rewrite Va. cbn [read_account mem_reader].
    unfold account_described. cbn [reads r_account r_code r_slot].
    destruct (m_accounts m !! a) as [acc|]; [|exists false; split; [reflexivity|]; split; [discriminate|now intros (? & ? & _)]].
    destruct (number_read _ _ _ Hb) as (bb & Eb & Rb). rewrite Eb. cbn [obind]. unfold read_uint256. rewrite Rb. cbn [obind].
    assert (No : forall P : Prop, ~ P -> exists b, Done false = Done b /\ (b = true <-> P)) by (intros P NP; exists false; split; [reflexivity|]; split; [discriminate|now intros H%NP]).
    destruct (N.eqb_spec (a_balance acc) bal) as [Qb|Qb]; cbn [negb]; [|apply No; intros (acc' & [= <-] & H & _); apply Qb; exact (number_one _ _ _ _ H Hb)].
    destruct (number_read _ _ _ Hn) as (bn & En & Rn). rewrite En. cbn [obind]. unfold read_uint64. rewrite Rn. cbn [obind].
    destruct (N.eqb_spec (a_nonce acc) non) as [Qn|Qn]; cbn [negb]; [|apply No; intros (acc' & [= <-] & _ & H & _); apply Qn; exact (number_one _ _ _ _ H Hn)].
    rewrite (proj2 (from_hex_spec _ _) Hc). cbn [read_code mem_reader].
    destruct (bytes_eqb _ code) eqn:Qc; cbn [negb]; [|apply No; intros (acc' & [= <-] & _ & _ & H & _); rewrite (hex_one _ _ _ H Hc) in Qc; assert (T : bytes_eqb code code = true) by (now apply bytes_eqb_eq); congruence].
    apply bytes_eqb_eq in Qc. pose proof D as (xs & F2 & _). destruct (forall2_fst _ _ _ F2) as (A1 & _ & _).
    destruct (slots_checked a (a_incarnation acc) (j_storage e)) as (b & E & R).
    { intros s' v' I. destruct (A1 _ _ I) as (x & _ & Hx). destruct (V _ _ I) as (w & Hw & _). split; [now exists x|now exists w]. }
    assert (Sz : (forall s v l w, In (s, v) (j_storage e) -> says_number 32 s l -> says_number 32 v w -> default 0 (m_storage m !! (a, a_incarnation acc, l)) = w) ->
      storage_size m a (a_incarnation acc) = length (j_storage e) <-> forall l, default 0 (m_storage m !! (a, a_incarnation acc, l)) <> 0 -> exists s v, In (s, v) (j_storage e) /\ says_number 32 s l).
    { intros G. apply storage_counted; [exact D|]. intros s' v' I. destruct (A1 _ _ I) as (x & _ & Hx). destruct (V _ _ I) as (w & Hw & Nw). exists x, w. repeat split; try assumption. exact (G _ _ _ _ I Hx Hw). }
    destruct (Nat.eqb_spec (storage_size m a (a_incarnation acc)) (length (j_storage e))) as [Qs|Qs]; cbn [negb].
    - exists b. split; [exact E|]. rewrite R. split.
      + intros G. exists acc. split; [reflexivity|]. split; [now subst bal|]. split; [now subst non|]. split; [now rewrite Qc|]. split; [exact G|]. now apply Sz.
      + intros (acc' & [= <-] & _ & _ & _ & G & _). exact G.
    - apply No. intros (acc' & [= <-] & _ & _ & _ & G & H). apply Qs. now apply Sz.
  Qed.
  Lemma entries_checked l : (forall s e, In (s, e) l -> account_ok e /\ exists a, says_address s a) ->
    exists b, check_entries m l = Done b /\ (b = true <-> forall s e a, In (s, e) l -> says_address s a -> account_described (reads m) a e).
  Proof.
    induction l as [|[s e] l IH]; intros F; [exists true; split; [reflexivity|]; split; [intros _ ? ? ? []|reflexivity]|].
    destruct (F s e (or_introl eq_refl)) as (Ok_ & a & Ha). destruct (entry_checked s a e Ha Ok_) as (b & E & R). cbn [check_entries]. rewrite E. cbn [obind].
    destruct b.
    - destruct IH as (b' & E' & R'); [intros; apply F; now right|]. exists b'. split; [exact E'|]. rewrite R'. split.
      + intros G s' e' a' [I|I] H; [injection I as <- <-; rewrite (address_one _ _ _ H Ha); now apply R|now apply (G s')].
      + intros G s' e' a' I. apply G. now right.
    - exists false. split; [reflexivity|]. split; [discriminate|]. intros G. apply R. apply (G s); [now left|exact Ha].
  Qed.
  Theorem post_checked l : section_ok l -> exists b, post_check m l = Done b /\ (b = true <-> state_described (reads m) l).
  Proof.
    intros ((xs & F2 & Nd) & A). destruct (forall2_fst _ _ _ F2) as (A1 & A2 & A3).
    destruct (entries_checked l) as (b & E & R). { intros s e I. split; [exact (A _ _ I)|]. destruct (A1 _ _ I) as (x & _ & Hx). now exists x. }
    assert (Sz : (forall s e a, In (s, e) l -> says_address s a -> account_described (reads m) a e) ->
      number_of_accounts m = length l <-> forall a, m_accounts m !! a <> None -> exists s e, In (s, e) l /\ says_address s a).
    { intros G. unfold number_of_accounts. rewrite <- A3. rewrite (cover _ xs Nd).
      - split; intros C a H.
        + apply A2, C. destruct (m_accounts m !! a) as [x|]; [now exists x|congruence].
        + destruct (C a) as (s & e & I & Hs); [destruct H as (x & ->); discriminate|]. destruct (A1 _ _ I) as (x & Ix & Hx). now rewrite (address_one _ _ _ Hs Hx).
      - intros a I. destruct (A2 _ I) as (s & e & Is & Hs). destruct (G _ _ _ Is Hs) as (acc & Q & _). now exists acc. }
    unfold post_check, state_described. cbn [reads r_account]. destruct (Nat.eqb_spec (number_of_accounts m) (length l)) as [Q|Q]; cbn [negb].
    - exists b. split; [exact E|]. rewrite R. split; [intros G; split; [exact G|now apply Sz]|now intros (G & _)].
    - exists false. split; [reflexivity|]. split; [discriminate|]. intros (G & H). exfalso. now apply Q, Sz.
  Qed.
End Check.
Theorem post_verdict : forall m expected, slots_ok m -> section_ok expected -> exists b, post_check m expected = Done b /\ (b = true <-> state_described (reads m) expected).
Proof. intros m l S. exact (post_checked m S l). Qed.
