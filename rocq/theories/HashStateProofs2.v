(** Proofs for the HashState stage: later runs and unwinding. *)
From Coq Require Import Permutation Sorting.Sorted.
From Verif Require Import Base BaseFacts RlpModel TypesModel DbTable DbModel DbSpec DbProofs EtlModel EtlSpec EtlProofs EtlLemmas UnwindModel UnwindProofs UnwindProofs2 HashStateModel HashStateSpec HashStateProofs.

Lemma lower_bound_in t k e : dup_ordered t -> In e (lower_bound t k) <-> In e t /\ lex_lt (fst e) k = false.
Proof.
  intros O. destruct (lower_bound_app t k) as (pre & E & F). rewrite Forall_forall in F. split.
  - intros I. split; [rewrite E; apply in_or_app; now right|]. rewrite E in O. apply sorted_app in O as (_ & O & _). destruct (lower_bound t k) as [|x r] eqn:L; [destruct I|]. pose proof (lower_bound_head _ _ _ _ L) as Hx.
    destruct I as [ <- |I]; [exact Hx|]. apply sorted_cons_inv in O as (_ & O). apply O, pair_lt_le in I. destruct (lex_lt (fst e) k) eqn:X; [|reflexivity]. destruct (lex_cmp (fst x) (fst e)) as [Y|[Y|Y]]; [|congruence|congruence]. rewrite (lex_lt_trans _ _ _ Y X) in Hx. discriminate.
  - intros (I & L). rewrite E in I. apply in_app_or in I as [I|I]; [|exact I]. apply F in I. congruence.
Qed.

(** *** Records written one after the other *)
Section Puts.
  Context (tgt : tbl) (St : multi tgt = false) (f : bytes -> option entry).
  Definition put_key (d : database) (key : bytes) : database := match f key with Some (k, v) => put d tgt k v | None => d end.
  Lemma puts_wf keys : forall d, wf_db d -> wf_db (fold_left put_key keys d) /\ forall t, t <> tgt -> fold_left put_key keys d t = d t.
  Proof using Type.
    induction keys as [|key keys IH]; intros d W; [auto|]. cbn [fold_left]. assert (W' : wf_db (put_key d key)) by (unfold put_key; destruct (f key) as [[k v]|]; [now apply put_wf|exact W]). destruct (IH _ W') as (A & B). split; [exact A|]. intros t N. rewrite (B t N). unfold put_key. destruct (f key) as [[k v]|]; [now apply put_other|reflexivity].
  Qed.
  Lemma puts_other keys : forall d k, wf_db d -> (forall key k' v, In key keys -> f key = Some (k', v) -> k' <> k) -> lookup (fold_left put_key keys d tgt) k = lookup (d tgt) k.
  Proof using St.
    induction keys as [|key keys IH]; intros d k W N; [reflexivity|]. cbn [fold_left]. rewrite IH; [|exact (proj1 (puts_wf [key] d W))|intros key' k' v I; apply N; now right]. unfold put_key. destruct (f key) as [[k' v]|] eqn:E; [|reflexivity]. rewrite lookup_put by (exact W || exact St). destruct (eqb_spec k k') as [ -> |]; [|reflexivity]. exfalso. exact (N key k' v (or_introl eq_refl) E eq_refl).
  Qed.
  Lemma puts_last keys : forall d k v, wf_db d -> (exists key, In key keys /\ f key = Some (k, v)) -> (forall key w, In key keys -> f key = Some (k, w) -> w = v) -> lookup (fold_left put_key keys d tgt) k = Some v.
  Proof using St.
    induction keys as [|key keys IH]; intros d k v W (key0 & I & E) U; [destruct I|]. cbn [fold_left]. pose proof (proj1 (puts_wf [key] d W)) as W'. cbn [fold_left] in W'.
    assert (Dc : (exists x, In x keys /\ f x = Some (k, v)) \/ ~ exists x, In x keys /\ f x = Some (k, v)).
    { clear - keys. induction keys as [|x keys IHk]; [right; intros (x & [] & _)|]. destruct IHk as [(y & Iy & Ey)|Nk]; [left; exists y; split; [now right|exact Ey]|]. destruct (f x) as [[k' v']|] eqn:Ex.
      - destruct (bytes_dec k' k) as [ -> |Nk']; [destruct (bytes_dec v' v) as [ -> |Nv]|]; [left; exists x; split; [now left|exact Ex]| |]; right; intros (y & [ <- |Iy] & Ey); [congruence|apply Nk; now exists y|congruence|apply Nk; now exists y].
      - right. intros (y & [ <- |Iy] & Ey); [congruence|apply Nk; now exists y]. }
    destruct Dc as [X|X]; [apply IH; [exact W'|exact X|]; intros x w Ix; apply U; now right|].
    assert (Ek : f key = Some (k, v)) by (destruct I as [ -> |I]; [exact E|exfalso; apply X; now exists key0]).
    rewrite puts_other; [|exact W'|].
    - unfold put_key. rewrite Ek, lookup_put by (exact W || exact St). now rewrite eqb_refl.
    - intros x k' w Ix Ew ->. apply X. exists x. split; [exact Ix|]. rewrite Ew. do 2 f_equal. now apply (U x w (or_intror Ix)).
  Qed.
End Puts.

(** *** Later runs *)
Lemma acc_shape d : shapes d -> forall k v, In (k, v) (d kPlainAccountChangeSet) -> length k = 8%nat /\ (20 <= length v)%nat.
Proof. intros Sh k v I. destruct (sh_acc_changes d Sh k v I) as ((m & _ & ->) & L). split; [apply be_fixed_length|exact L]. Qed.
Definition account_of (e : entry) : bytes := firstn 20 (snd e).
Lemma account_record k v : length k = 8%nat -> (20 <= length v)%nat -> convert_to_db_format k v = Done (firstn 20 v, skipn 20 v).
Proof. intros L1 L2. unfold convert_to_db_format. rewrite L1. cbn [Nat.eqb]. destruct (Nat.ltb_spec (length v) 20); [lia|reflexivity]. Qed.
Lemma storage_record k v : length k = 36%nat -> (32 <= length v)%nat -> convert_to_db_format k v = Done (firstn 28 (skipn 8 k) ++ firstn 32 v, skipn 32 v).
Proof. intros L1 L2. unfold convert_to_db_format. rewrite L1. change (36 =? 8)%nat with false. change (36 <? 36)%nat with false. cbn [orb]. destruct (Nat.ltb_spec (length v) 32); [lia|reflexivity]. Qed.
Lemma state_lookup_none d k : wf_db d -> shapes d -> length k <> 20%nat -> length k <> 28%nat -> lookup (d kPlainState) k = None.
Proof.
  intros W Sh N1 N2. unfold lookup. destruct (find_first (d kPlainState) k (wf_multi d kPlainState W eq_refl)) as [(-> & _)|(pre & v & r & E & _)]; [reflexivity|]. exfalso. assert (I : In (k, v) (d kPlainState)) by (rewrite E; apply in_or_app; right; now left). destruct (sh_state d Sh k v I) as [X|(X & _)]; contradiction.
Qed.
Lemma lookup_dup_in t k v : dup_ordered t -> lookup t k = Some v -> In (k, v) t.
Proof.
  intros O. unfold lookup. destruct (find_first t k O) as [( -> & _)|(pre & w & r & E & -> & _)]; [discriminate|]. cbn [snd]. intros X. injection X as ->. rewrite E. apply in_or_app. right. now left.
Qed.

Section Later.
  Context (keccak : bytes -> bytes) (Hk : hash_length keccak).
  Definition hashed_record (s : table) (a : bytes) : option entry := match lookup s a with Some v => Some (keccak a, v) | None => None end.
  Definition code_record (s c : table) (a : bytes) : option entry :=
    match lookup s a with
    | Some v => match extract_incarnation v with
                | Ok i => if i =? 0 then None else match lookup c (a ++ be_fixed 8 i) with Some h => Some (keccak a ++ be_fixed 8 i, h) | None => None end
                | _ => None end
    | None => None
    end.
  Lemma promote_accounts s (p : table) : (forall k v, In (k, v) p -> length k = 8%nat /\ (20 <= length v)%nat) -> forall d, d kPlainState = s ->
    promote_records keccak HashAccount d p = Done (fold_left (put_key kHashedAccounts (hashed_record s)) (map account_of p) d).
  Proof using Type.
    induction p as [|[k v] p IH]; intros H d E; [reflexivity|]. destruct (H k v (or_introl eq_refl)) as (L1 & L2). cbn [promote_records]. rewrite account_record by assumption. cbn [obind promote_record map fold_left]. rewrite E. change (account_of (k, v)) with (firstn 20 v).
    set (a := firstn 20 v) in *. clearbody a. match goal with |- obind ?m _ = _ => assert (X : m = Done (put_key kHashedAccounts (hashed_record s) d a)) by (unfold put_key, hashed_record; destruct (lookup s a); reflexivity) end.
    rewrite X. cbn [obind]. apply IH; [intros k' v' I; apply H; now right|]. transitivity (d kPlainState); [|exact E]. unfold put_key. destruct (hashed_record s a) as [[k' w]|]; [now apply put_other|reflexivity].
  Qed.
  Lemma promote_codes s c (p : table) : (forall a v, length a = 20%nat -> lookup s a = Some v -> exists i, extract_incarnation v = Ok i) -> (forall k v, In (k, v) p -> length k = 8%nat /\ (20 <= length v)%nat) -> forall d, d kPlainState = s -> d kPlainContractCode = c ->
    promote_records keccak Code d p = Done (fold_left (put_key kContractCode (code_record s c)) (map account_of p) d).
  Proof using Type.
    intros Dec. induction p as [|[k v] p IH]; intros H d E Ec; [reflexivity|]. destruct (H k v (or_introl eq_refl)) as (L1 & L2). cbn [promote_records]. rewrite account_record by assumption. cbn [obind promote_record map fold_left]. rewrite E, Ec. change (account_of (k, v)) with (firstn 20 v).
    assert (La : length (firstn 20 v) = 20%nat) by (rewrite firstn_length; lia). set (a := firstn 20 v) in *. clearbody a.
    match goal with |- obind ?m _ = _ => assert (X : m = Done (put_key kContractCode (code_record s c) d a)) end.
    { unfold put_key, code_record. destruct (lookup s a) as [w|] eqn:Ew; [|reflexivity]. destruct (Dec a w La Ew) as (i & Ei). rewrite Ei. cbn [err_handler obind]. destruct (i =? 0); [reflexivity|]. rewrite (firstn_all2 a) by lia. destruct (lookup c (a ++ be_fixed 8 i)); [|reflexivity].
      destruct (parts_at a (be_fixed 8 i) 20 La) as ( -> & -> ). now rewrite firstn_all2 by (rewrite be_fixed_length; lia). }
    rewrite X. cbn [obind]. apply IH; [intros k' v' I; apply H; now right| |].
    - transitivity (d kPlainState); [|exact E]. unfold put_key. destruct (code_record s c a) as [[k' w]|]; [now apply put_other|reflexivity].
    - transitivity (d kPlainContractCode); [|exact Ec]. unfold put_key. destruct (code_record s c a) as [[k' w]|]; [now apply put_other|reflexivity].
  Qed.
  Lemma promote_slots d (p : table) : wf_db d -> shapes d -> (forall k v, In (k, v) p -> length k = 36%nat /\ (32 <= length v)%nat) -> promote_records keccak HashStorage d p = Done d.
  Proof using Type.
    intros W Sh. induction p as [|[k v] p IH]; intros H; [reflexivity|]. destruct (H k v (or_introl eq_refl)) as (L1 & L2). cbn [promote_records]. rewrite storage_record by assumption. cbn [obind promote_record]. rewrite state_lookup_none; [|exact W|exact Sh| |].
    - cbn [obind]. apply IH. intros k' v' I. apply H. now right.
    - rewrite app_length, !firstn_length, skipn_length. lia.
    - rewrite app_length, !firstn_length, skipn_length. lia.
  Qed.
  Lemma shapes_same d d' : shapes d -> (forall t, t <> kHashedAccounts -> t <> kContractCode -> d' t = d t) -> shapes d'.
  Proof using Type. intros Sh E. split; intros k v; rewrite E by discriminate; intros I; [exact (sh_state d Sh k v I)|exact (sh_codes d Sh k v I)|exact (sh_acc_changes d Sh k v I)|exact (sh_st_changes d Sh k v I)]. Qed.
  Lemma changed_in d p a : wf_db d -> p + 1 < 2 ^ 64 -> length a = 20%nat -> changed_after d p a -> In a (map account_of (lower_bound (d kPlainAccountChangeSet) (block_key ((p + 1) mod 2 ^ 64)))).
  Proof using Type.
    intros W B La (m & s & H1 & H2 & I). apply in_map_iff. exists (be_fixed 8 m, a ++ s). split; [exact (proj1 (parts_at a s 20 La))|]. apply lower_bound_in; [exact (wf_multi d kPlainAccountChangeSet W eq_refl)|]. split; [exact I|]. cbn [fst]. rewrite N.mod_small by exact B. unfold block_key.
    destruct (lex_lt (be_fixed 8 m) (be_fixed 8 (p + 1))) eqn:X; [|reflexivity]. apply be8_lt in X; [lia|exact H2|exact B].
  Qed.

  Lemma later_run d old p n : wf_db d -> shapes d -> p <> 0 -> p + 1 < 2 ^ 64 -> n < 2 ^ 64 -> get_stage_progress d kHashStateKey = Done p -> get_stage_progress d kExecutionKey = Done n -> account_changes d old p ->
    distinct_hashes keccak (fun a => length a = 20%nat /\ (lookup (d kPlainState) a <> None \/ old a <> None)) ->
    (forall a v, length a = 20%nat -> old a = Some v -> lookup (d kHashedAccounts) (keccak a) = Some v) -> forall pick,
    exists d', stage_hashstate keccak pick d = Done d' /\ wf_db d' /\ get_stage_progress d' kHashStateKey = Done n
      /\ (forall a v, length a = 20%nat -> lookup (d kPlainState) a = Some v -> lookup (d' kHashedAccounts) (keccak a) = Some v)
      /\ (forall a v i h, length a = 20%nat -> lookup (d kPlainState) a = Some v -> extract_incarnation v = Ok i -> i <> 0 -> lookup (d kPlainContractCode) (a ++ be_fixed 8 i) = Some h ->
            (changed_after d p a \/ lookup (d kContractCode) (keccak a ++ be_fixed 8 i) = Some h) -> lookup (d' kContractCode) (keccak a ++ be_fixed 8 i) = Some h)
      /\ (forall a v, length a = 20%nat -> old a = Some v -> lookup (d kPlainState) a = None -> lookup (d' kHashedAccounts) (keccak a) = Some v)
      /\ d' kHashedStorage = d kHashedStorage
      /\ (forall t, t <> kHashedAccounts -> t <> kContractCode -> t <> kSyncStageProgress -> d' t = d t).
  Proof using Hk.
    intros W Sh P0 P1 Hn Ep En Ac Hd Ho pick. unfold stage_hashstate. rewrite Ep. cbn [obind]. destruct (N.eqb_spec p 0) as [|_]; [contradiction|]. cbn [negb]. cbn iota.
    set (keys := map account_of (lower_bound (d kPlainAccountChangeSet) (block_key ((p + 1) mod 2 ^ 64)))).
    assert (Hs : forall k v, In (k, v) (lower_bound (d kPlainAccountChangeSet) (block_key ((p + 1) mod 2 ^ 64))) -> length k = 8%nat /\ (20 <= length v)%nat).
    { intros k v I. apply lower_bound_in in I as (I & _); [|exact (wf_multi d kPlainAccountChangeSet W eq_refl)]. exact (acc_shape d Sh k v I). }
    assert (Hl : forall a, In a keys -> length a = 20%nat).
    { intros a I. unfold keys in I. apply in_map_iff in I as ([k v] & <- & I). destruct (Hs k v I) as (_ & L). unfold account_of. cbn [snd]. rewrite firstn_length. lia. }
    unfold promote at 1. rewrite Ep. cbn [obind fst tables_for_promote]. rewrite (promote_accounts (d kPlainState) _ Hs d eq_refl). fold keys. cbn [obind].
    set (d1 := fold_left (put_key kHashedAccounts (hashed_record (d kPlainState))) keys d). destruct (puts_wf kHashedAccounts (hashed_record (d kPlainState)) keys d W) as (W1 & O1). fold d1 in W1, O1.
    assert (Ep1 : get_stage_progress d1 kHashStateKey = Done p) by (rewrite <- Ep; apply get_other; now apply O1).
    assert (Sh1 : shapes d1) by (apply (shapes_same d); [exact Sh|]; intros t N _; now apply O1).
    unfold promote at 1. rewrite Ep1. cbn [obind fst tables_for_promote]. rewrite (promote_slots d1 _ W1 Sh1).
    2:{ intros k v I. apply lower_bound_in in I as (I & _); [|exact (wf_multi d1 kPlainStorageChangeSet W1 eq_refl)]. exact (sh_st_changes d1 Sh1 k v I). }
    cbn [obind]. unfold promote. rewrite Ep1. cbn [obind fst tables_for_promote]. rewrite (O1 kPlainAccountChangeSet) by discriminate.
    rewrite (promote_codes (d kPlainState) (d kPlainContractCode) _ (ac_decode d old p Ac) Hs d1) by (apply O1; discriminate). fold keys. cbn [obind].
    set (d2 := fold_left (put_key kContractCode (code_record (d kPlainState) (d kPlainContractCode))) keys d1). destruct (puts_wf kContractCode (code_record (d kPlainState) (d kPlainContractCode)) keys d1 W1) as (W2 & O2). fold d2 in W2, O2.
    assert (En2 : get_stage_progress d2 kExecutionKey = Done n) by (rewrite <- En; apply get_other; rewrite O2 by discriminate; now apply O1). rewrite En2. cbn [obind]. unfold set_stage_progress, set_stage_data. rewrite known_hashstate. cbn [negb].
    eexists. split; [reflexivity|]. split; [now apply put_wf|]. split.
    { unfold get_stage_progress, get_stage_data. rewrite known_hashstate. cbn [negb]. rewrite lookup_put by (exact W2 || reflexivity). rewrite eqb_refl, be_fixed_length. cbn [Nat.eqb]. f_equal. now apply be_to_N_be_fixed_small. }
    assert (Ta : put d2 kSyncStageProgress kHashStateKey (be_fixed 8 n) kHashedAccounts = d1 kHashedAccounts) by (rewrite put_other by discriminate; now apply O2).
    assert (Tc : put d2 kSyncStageProgress kHashStateKey (be_fixed 8 n) kContractCode = d2 kContractCode) by now rewrite put_other by discriminate.
    rewrite Ta, Tc. split; [|split; [|split; [|split]]].
    - intros a v La Ea. destruct (in_dec bytes_dec a keys) as [I|N].
      + apply (puts_last kHashedAccounts eq_refl); [exact W| |].
        * exists a. split; [exact I|]. unfold hashed_record. now rewrite Ea.
        * intros b w Ib Eb. unfold hashed_record in Eb. destruct (lookup (d kPlainState) b) as [x|] eqn:Ex; [|discriminate]. apply (f_equal (fun o => match o with Some z => z | None => ([], []) end)) in Eb. apply pair_equal_spec in Eb as (Eb & ->). assert (b = a).
          { apply Hd; [split; [now apply Hl|left; congruence]|split; [exact La|left; congruence]|exact Eb]. } subst b. congruence.
      + unfold d1. rewrite (puts_other kHashedAccounts eq_refl); [|exact W|].
        * apply Ho; [exact La|]. destruct (bytes_dec v (match old a with Some x => x | None => [] end)) as [Ev|Nv]; destruct (old a) as [x|] eqn:Eo; try congruence; exfalso; apply N; (apply changed_in; [exact W|exact P1|exact La|]; apply (ac_changes d old p Ac); [exact La|congruence]).
        * intros b k' w Ib Eb X. unfold hashed_record in Eb. destruct (lookup (d kPlainState) b) as [x|] eqn:Ex; [|discriminate]. apply (f_equal (fun o => match o with Some z => z | None => ([], []) end)) in Eb. apply pair_equal_spec in Eb as (Eb & _). assert (b = a).
          { apply Hd; [split; [now apply Hl|left; congruence]|split; [exact La|left; congruence]|congruence]. } subst b. contradiction.
    - intros a v i h La Ea Ei Ni Eh Or.
      assert (U : forall b w, In b keys -> code_record (d kPlainState) (d kPlainContractCode) b = Some (keccak a ++ be_fixed 8 i, w) -> b = a /\ w = h).
      { intros b w Ib Eb. unfold code_record in Eb. destruct (lookup (d kPlainState) b) as [x|] eqn:Ex; [|discriminate]. destruct (extract_incarnation x) as [j| | |] eqn:Ej; try discriminate. destruct (j =? 0); [discriminate|]. destruct (lookup (d kPlainContractCode) (b ++ be_fixed 8 j)) as [g|] eqn:Eg; [|discriminate].
        apply (f_equal (fun o => match o with Some z => z | None => ([], []) end)) in Eb. apply pair_equal_spec in Eb as (Eb & ->). apply app_parts in Eb as (Eb & Ej'); [|now rewrite !Hk]. assert (b = a) by (apply Hd; [split; [now apply Hl|left; congruence]|split; [exact La|left; congruence]|exact Eb]). subst b. split; [reflexivity|]. assert (x = v) by congruence. subst x. assert (j = i) by congruence. subst j. congruence. }
      destruct (in_dec bytes_dec a keys) as [I|N].
      + apply (puts_last kContractCode eq_refl); [exact W1| |].
        * exists a. split; [exact I|]. unfold code_record. rewrite Ea, Ei. destruct (N.eqb_spec i 0); [contradiction|]. now rewrite Eh.
        * intros b w Ib Eb. exact (proj2 (U b w Ib Eb)).
      + unfold d2. rewrite (puts_other kContractCode eq_refl); [|exact W1|].
        * rewrite O1 by discriminate. destruct Or as [C|X]; [|exact X]. exfalso. apply N. now apply changed_in.
        * intros b k' w Ib Eb ->. destruct (U b w Ib Eb) as ( -> & _). contradiction.
    - intros a v La Eo Ea. unfold d1. rewrite (puts_other kHashedAccounts eq_refl); [now apply Ho|exact W|]. intros b k' w Ib Eb X. unfold hashed_record in Eb. destruct (lookup (d kPlainState) b) as [x|] eqn:Ex; [|discriminate]. apply (f_equal (fun o => match o with Some z => z | None => ([], []) end)) in Eb. apply pair_equal_spec in Eb as (Eb & _).
      assert (b = a) by (apply Hd; [split; [now apply Hl|left; congruence]|split; [exact La|right; congruence]|congruence]). subst b. congruence.
    - rewrite put_other, O2, O1 by discriminate. reflexivity.
    - intros t N1 N2 N3. rewrite put_other by exact N3. rewrite O2 by exact N2. now apply O1.
  Qed.
End Later.

(** *** Unwinding *)
Lemma erase_at_single t k v : ordered t -> In (k, v) t -> erase_at t (k, v) = erase_key t k.
Proof.
  intros O I. unfold erase_at, erase_key. cbn [fst snd]. apply filter_ext_in. intros [k' v'] I'. cbn [fst snd]. destruct (eqb_spec k' k) as [ -> |]; [|reflexivity]. cbn [andb]. now rewrite (ordered_fun t k v' v O I' I), eqb_refl.
Qed.
Lemma erase_found_key t k : ordered t -> erase_found t k = erase_key t k.
Proof.
  intros O. unfold erase_found. destruct (find_first t k (ordered_dup t O)) as [( -> & N)|(pre & v & r & E & -> & _)].
  - unfold erase_key. rewrite <- (filter_all t) at 1. apply filter_ext_in. intros [k' v'] I. cbn [fst]. destruct (eqb_spec k' k) as [ -> |]; [|reflexivity]. now apply N in I.
  - apply erase_at_single; [exact O|]. rewrite E. apply in_or_app. right. now left.
Qed.
Section Erase.
  Context (tgt : tbl) (St : multi tgt = false) (f : bytes -> option bytes).
  Definition erase_one (d : database) (key : bytes) : database := match f key with Some k => set_table d tgt (erase_found (d tgt) k) | None => d end.
  Lemma erase_one_wf d key : wf_db d -> wf_db (erase_one d key).
  Proof using St.
    intros W. unfold erase_one. destruct (f key) as [k|]; [|exact W]. apply set_table_wf; [exact W|]. rewrite St, erase_found_key by exact (wf_single d tgt W St). apply erase_key_ordered. exact (wf_single d tgt W St).
  Qed.
  Lemma erases_wf keys : forall d, wf_db d -> wf_db (fold_left erase_one keys d) /\ forall t, t <> tgt -> fold_left erase_one keys d t = d t.
  Proof using St.
    induction keys as [|key keys IH]; intros d W; [auto|]. cbn [fold_left]. destruct (IH _ (erase_one_wf d key W)) as (A & B). split; [exact A|]. intros t N. rewrite (B t N). unfold erase_one. destruct (f key); [now apply set_table_other|reflexivity].
  Qed.
  Lemma erases_in keys : forall d e, wf_db d -> In e (fold_left erase_one keys d tgt) <-> In e (d tgt) /\ forall key, In key keys -> f key <> Some (fst e).
  Proof using St.
    induction keys as [|key keys IH]; intros d e W; [split; [intros I; split; [exact I|intros key []]|intros (I & _); exact I]|]. cbn [fold_left]. rewrite (IH _ e (erase_one_wf d key W)). unfold erase_one. destruct (f key) as [k|] eqn:E.
    - rewrite set_table_same, erase_found_key, erase_key_in by exact (wf_single d tgt W St). split.
      + intros ((N & I) & F). split; [exact I|]. intros key' [ <- |I']; [congruence|now apply F].
      + intros (I & F). split; [split; [|exact I]|intros key' I'; apply F; now right]. intros X. apply (F key); [now left|congruence].
    - split; intros (I & F); (split; [exact I|]); [intros key' [ <- |I']; [congruence|now apply F]|intros key' I'; apply F; now right].
  Qed.
End Erase.
Section Unwind.
  Context (keccak : bytes -> bytes) (Hk : hash_length keccak).
  Definition unwound_code (s : table) (a : bytes) : option bytes :=
    match lookup s a with
    | Some v => match extract_incarnation v with Ok i => if i =? 0 then None else Some (keccak a ++ be_fixed 8 i) | _ => None end
    | None => None
    end.
  Lemma unwind_accounts (p : table) : (forall k v, In (k, v) p -> length k = 8%nat /\ (20 <= length v)%nat) -> forall d,
    unwind_records keccak HashAccount d p = Done (fold_left (erase_one kHashedAccounts (fun a => Some (keccak a))) (map account_of p) d).
  Proof using Type.
    induction p as [|[k v] p IH]; intros H d; [reflexivity|]. destruct (H k v (or_introl eq_refl)) as (L1 & L2). cbn [unwind_records]. rewrite account_record by assumption. cbn [obind unwind_record map fold_left]. apply IH. intros k' v' I. apply H. now right.
  Qed.
  Lemma unwind_codes s (p : table) : (forall a v, length a = 20%nat -> lookup s a = Some v -> exists i, extract_incarnation v = Ok i) -> (forall k v, In (k, v) p -> length k = 8%nat /\ (20 <= length v)%nat) -> forall d, d kPlainState = s ->
    unwind_records keccak Code d p = Done (fold_left (erase_one kContractCode (unwound_code s)) (map account_of p) d).
  Proof using Type.
    intros Dec. induction p as [|[k v] p IH]; intros H d E; [reflexivity|]. destruct (H k v (or_introl eq_refl)) as (L1 & L2). cbn [unwind_records]. rewrite account_record by assumption. cbn [obind unwind_record map fold_left]. rewrite E. change (account_of (k, v)) with (firstn 20 v).
    assert (La : length (firstn 20 v) = 20%nat) by (rewrite firstn_length; lia). set (a := firstn 20 v) in *. clearbody a.
    match goal with |- obind ?m _ = _ => assert (X : m = Done (erase_one kContractCode (unwound_code s) d a)) end.
    { unfold erase_one, unwound_code. destruct (lookup s a) as [w|] eqn:Ew; [|reflexivity]. destruct (Dec a w La Ew) as (i & Ei). rewrite Ei. cbn [err_handler obind]. destruct (i =? 0); [reflexivity|]. rewrite (firstn_all2 a) by lia. reflexivity. }
    rewrite X. cbn [obind]. apply IH; [intros k' v' I; apply H; now right|]. transitivity (d kPlainState); [|exact E]. unfold erase_one. destruct (unwound_code s a); [now apply set_table_other|reflexivity].
  Qed.
  (** Whatever the table holds under other keys than those of 72 bytes stays. *)
  Lemma unwind_slots (p : table) : (forall k v, In (k, v) p -> length k = 36%nat /\ (32 <= length v)%nat) -> forall d, wf_db d -> exists d', unwind_records keccak HashStorage d p = Done d' /\ wf_db d' /\ (forall t, t <> kHashedStorage -> d' t = d t)
    /\ (forall e, In e (d' kHashedStorage) -> In e (d kHashedStorage)) /\ (forall e, length (fst e) <> 72%nat -> In e (d kHashedStorage) -> In e (d' kHashedStorage)).
  Proof using Hk.
    induction p as [|[k v] p IH]; intros H d W; [exists d; repeat split; auto|]. destruct (H k v (or_introl eq_refl)) as (L1 & L2). cbn [unwind_records]. rewrite storage_record by assumption. cbn [obind unwind_record].
    set (key := firstn 28 (skipn 8 k) ++ firstn 32 v). assert (L : length key = 60%nat) by (unfold key; rewrite app_length, !firstn_length, skipn_length; lia). unfold hashed_storage_key. rewrite L. change (60 <? 28)%nat with false. cbn [obind].
    set (hk := keccak (firstn 20 key) ++ firstn 8 (skipn 20 key) ++ keccak (skipn 28 key)). assert (Lk : length hk = 72%nat) by (unfold hk; rewrite !app_length, !Hk, firstn_length, skipn_length; lia).
    pose proof (wf_multi d kHashedStorage W eq_refl) as O.
    assert (X : dup_ordered (erase_found (d kHashedStorage) hk) /\ (forall e, In e (erase_found (d kHashedStorage) hk) -> In e (d kHashedStorage)) /\ (forall e, length (fst e) <> 72%nat -> In e (d kHashedStorage) -> In e (erase_found (d kHashedStorage) hk))).
    { unfold erase_found. destruct (find_first (d kHashedStorage) hk O) as [( -> & _)|(pre & w & r & _ & -> & _)]; [auto|]. split; [now apply filter_sorted|]. split; [intros e I; now apply erase_at_in in I|]. intros e Ne I. apply erase_at_in. split; [|exact I]. intros ->. cbn [fst] in Ne. contradiction. }
    destruct X as (X1 & X2 & X3). destruct (IH (fun k' v' I => H k' v' (or_intror I)) (set_table d kHashedStorage (erase_found (d kHashedStorage) hk))) as (d' & E & W' & A & B & C); [now apply set_table_wf|].
    exists d'. split; [exact E|]. split; [exact W'|]. split; [intros t N; rewrite (A t N); now apply set_table_other|]. rewrite set_table_same in B, C. split; [intros e I; now apply X2, B|]. intros e Ne I. apply C; [exact Ne|]. now apply X3.
  Qed.
  Lemma unwind_run d h n : wf_db d -> shapes d -> n < h -> n + 1 < 2 ^ 64 -> get_stage_progress d kHashStateKey = Done h -> (forall a v, length a = 20%nat -> lookup (d kPlainState) a = Some v -> exists i, extract_incarnation v = Ok i) ->
    exists d', unwind_hashstate keccak d n = Done (Some d') /\ wf_db d' /\ get_stage_progress d' kHashStateKey = Done n
      /\ (forall k v, In (k, v) (d' kHashedAccounts) <-> In (k, v) (d kHashedAccounts) /\ forall a, length a = 20%nat -> changed_after d n a -> keccak a <> k)
      /\ (forall k v, length k <> 72%nat -> In (k, v) (d' kHashedStorage) <-> In (k, v) (d kHashedStorage))
      /\ (forall t, t <> kHashedAccounts -> t <> kHashedStorage -> t <> kContractCode -> t <> kSyncStageProgress -> d' t = d t).
  Proof using Hk.
    intros W Sh Hh Hn Ep Dec. unfold unwind_hashstate. rewrite Ep. cbn [obind]. destruct (N.leb_spec h n); [lia|].
    set (p := lower_bound (d kPlainAccountChangeSet) (block_key ((n + 1) mod 2 ^ 64))). set (keys := map account_of p).
    assert (Hs : forall k v, In (k, v) p -> length k = 8%nat /\ (20 <= length v)%nat).
    { intros k v I. apply lower_bound_in in I as (I & _); [|exact (wf_multi d kPlainAccountChangeSet W eq_refl)]. exact (acc_shape d Sh k v I). }
    unfold hashstate_unwind at 1. cbn [fst tables_for_promote]. fold p. rewrite (unwind_accounts p Hs d). fold keys. cbn [obind]. set (d1 := fold_left _ keys d). destruct (erases_wf kHashedAccounts eq_refl (fun a => Some (keccak a)) keys d W) as (W1 & O1). fold d1 in W1, O1.
    unfold hashstate_unwind at 1. cbn [fst tables_for_promote]. assert (Hs1 : forall k v, In (k, v) (lower_bound (d1 kPlainStorageChangeSet) (block_key ((n + 1) mod 2 ^ 64))) -> length k = 36%nat /\ (32 <= length v)%nat).
    { intros k v I. apply lower_bound_in in I as (I & _); [|exact (wf_multi d1 kPlainStorageChangeSet W1 eq_refl)]. rewrite O1 in I by discriminate. exact (sh_st_changes d Sh k v I). }
    destruct (unwind_slots _ Hs1 d1 W1) as (d2 & -> & W2 & O2 & S1 & S2). cbn [obind]. unfold hashstate_unwind. cbn [fst tables_for_promote]. rewrite (O2 kPlainAccountChangeSet), (O1 kPlainAccountChangeSet) by discriminate. fold p.
    rewrite (unwind_codes (d kPlainState) p Dec Hs d2) by (rewrite O2 by discriminate; apply O1; discriminate). fold keys. cbn [obind]. set (d3 := fold_left _ keys d2). destruct (erases_wf kContractCode eq_refl (unwound_code (d kPlainState)) keys d2 W2) as (W3 & O3). fold d3 in W3, O3.
    unfold set_stage_progress, set_stage_data. rewrite known_hashstate. cbn [negb obind]. eexists. split; [reflexivity|]. split; [now apply put_wf|]. split; [|split; [|split]].
    - unfold get_stage_progress, get_stage_data. rewrite known_hashstate. cbn [negb]. rewrite lookup_put by (exact W3 || reflexivity). rewrite eqb_refl, be_fixed_length. cbn [Nat.eqb]. f_equal. apply be_to_N_be_fixed_small. change (256 ^ N.of_nat 8) with (2 ^ 64). lia.
    - intros k v. rewrite put_other, O3, O2 by discriminate. unfold d1. rewrite (erases_in kHashedAccounts eq_refl _ keys d (k, v) W). cbn [fst]. split; intros (I & F); (split; [exact I|]).
      + intros a La C X. apply (F a); [|now f_equal]. apply (changed_in d n a W Hn La C).
      + intros a Ia X. apply (f_equal (fun o => match o with Some z => z | None => [] end)) in X. revert X. unfold keys in Ia. apply in_map_iff in Ia as ([k' v'] & <- & Ia). destruct (Hs k' v' Ia) as (L1 & L2). unfold account_of. cbn [snd].
        unfold p in Ia. apply lower_bound_in in Ia as (Ia & Lt); [|exact (wf_multi d kPlainAccountChangeSet W eq_refl)]. cbn [fst] in Lt. apply F; [rewrite firstn_length; lia|].
        destruct (sh_acc_changes d Sh _ _ Ia) as ((m & Hm & ->) & _). exists m, (skipn 20 v'). split; [|split; [exact Hm|now rewrite firstn_skipn]]. rewrite N.mod_small in Lt by exact Hn. unfold block_key in Lt. destruct (N.lt_ge_cases n m) as [|Y]; [assumption|]. exfalso. rewrite (proj2 (be8_lt m (n + 1) Hm Hn)) in Lt; [discriminate|lia].
    - intros k v N. rewrite put_other, O3 by discriminate. split; [intros I; apply S1 in I; now rewrite O1 in I by discriminate|]. intros I. apply S2; [exact N|]. now rewrite O1 by discriminate.
    - intros t N1 N2 N3 N4. rewrite put_other by exact N4. rewrite O3, O2 by assumption. now apply O1.
  Qed.
End Unwind.
