(** Proofs about the checking commands. *)
From Verif Require Import Base BaseFacts RlpSpec RlpModel BlockModel BlockSpec CodecLemmas UtilModel UtilProofs DbTable DbModel DbSpec DbProofs DbBlockProofs IndexModel PrecompileProofs ToolModel ToolSpec.

Lemma load_be8 n : n < 2 ^ 64 -> load_big_u64 (be_fixed 8 n) = Done n.
Proof. intros L. unfold load_big_u64. rewrite be_fixed_length. change (8 <? 8)%nat with false. cbv iota. rewrite firstn_all2 by (rewrite be_fixed_length; lia). now rewrite be_to_N_be_fixed_small. Qed.
Lemma load_be8_app n r : n < 2 ^ 64 -> load_big_u64 (be_fixed 8 n ++ r) = Done n.
Proof.
  intros L. unfold load_big_u64. rewrite app_length, be_fixed_length. destruct (Nat.ltb_spec (8 + length r) 8); [lia|].
  rewrite firstn_app_exact by (symmetry; apply be_fixed_length). now rewrite be_to_N_be_fixed_small.
Qed.

(** *** Block hashes *)
Lemma check_hashes_ok numbers canonical : ordered numbers ->
  (forall k v, In (k, v) canonical -> exists n, n < 2 ^ 64 /\ k = be_fixed 8 n) ->
  (forall k v, In (k, v) numbers -> exists n, n < 2 ^ 64 /\ v = be_fixed 8 n) ->
  exists l, check_hashes numbers canonical = Done l /\
    (forall r, In r l <-> match r with
      | HashNotFound hash n => n < 2 ^ 64 /\ In (be_fixed 8 n, hash) canonical /\ forall v, ~ In (hash, v) numbers
      | HashMismatch hash n m => n < 2 ^ 64 /\ m < 2 ^ 64 /\ n <> m /\ In (be_fixed 8 n, hash) canonical /\ In (hash, be_fixed 8 m) numbers
      end).
Proof.
  intros O. induction canonical as [|[key hash] rest IH]; intros Kc Kn.
  - exists []. split; [reflexivity|]. intros r. split; [intros []|]. destruct r; cbn; tauto.
  - destruct IH as (l & El & Hl); [intros k v I; apply (Kc k v); now right|exact Kn|].
    destruct (Kc key hash (or_introl eq_refl)) as (n & Ln & ->). cbn [check_hashes]. rewrite El. destruct (lookup numbers hash) as [v|] eqn:Ev.
    + apply lookup_spec in Ev; [|exact O]. destruct (Kn hash v Ev) as (m & Lm & ->). destruct (eqb_spec (be_fixed 8 m) (be_fixed 8 n)) as [E|NE]; cbn [negb obind].
      * exists l. split; [reflexivity|]. intros r. rewrite (Hl r). destruct r as [h x|h x y]; cbn [In].
        -- split; [intros (A & B & C); auto|]. intros (A & [B|B] & C); [|auto]. exfalso. apply pair_equal_spec in B as (B1 & B2). subst h. exact (C _ Ev).
        -- split; [intros (A & B & C & D & F); auto 10|]. intros (A & B & C & [D|D] & F); [|auto 10]. exfalso. apply pair_equal_spec in D as (D1 & D2). subst h.
           pose proof (ordered_fun _ _ _ _ O Ev F) as X. apply C. apply be8_inj; [assumption|assumption|]. congruence.
      * rewrite load_be8, load_be8 by assumption. cbn [obind app]. eexists. split; [reflexivity|]. intros r. cbn [In]. rewrite (Hl r). destruct r as [h x|h x y]; cbn [In].
        -- split; [intros [A|(A & B & C)]; [discriminate|auto]|]. intros (A & [B|B] & C); [|auto]. exfalso. apply pair_equal_spec in B as (B1 & B2). subst h. exact (C _ Ev).
        -- split.
           ++ intros [A|(A & B & C & D & F)]; [|auto 10]. injection A as <- <- <-. repeat (split; [assumption|]). split; [intros ->; now apply NE|]. auto.
           ++ intros (A & B & C & [D|D] & F); [|auto 10]. left. apply pair_equal_spec in D as (D1 & D2). subst h. apply be8_inj in D1; [|assumption|assumption]. subst x.
              pose proof (ordered_fun _ _ _ _ O Ev F) as X. apply be8_inj in X; [|assumption|assumption]. now subst y.
    + rewrite lookup_none in Ev by exact O. rewrite load_be8 by assumption. cbn [obind app]. eexists. split; [reflexivity|]. intros r. cbn [In]. rewrite (Hl r). destruct r as [h x|h x y]; cbn [In].
      * split.
        -- intros [A|(A & B & C)]; [injection A as <- <-; auto|auto].
        -- intros (A & [B|B] & C); [|auto]. left. apply pair_equal_spec in B as (B1 & B2). subst h. apply be8_inj in B1; [|assumption|assumption]. now subst x.
      * split; [intros [A|(A & B & C & D & F)]; [discriminate|auto 10]|]. intros (A & B & C & [D|D] & F); [|auto 10]. exfalso. apply pair_equal_spec in D as (D1 & D2). subst h. exact (Ev _ F).
Qed.
Lemma blockhashes_reports d : wf_db d -> number_shapes d ->
  exists l, check_blockhashes d = Done l /\
    (l = [] <-> forall n hash, canonical_at d n hash -> numbered d hash n) /\
    (forall hash n, In (HashNotFound hash n) l <-> canonical_at d n hash /\ forall m, ~ numbered d hash m) /\
    (forall hash n m, In (HashMismatch hash n m) l <-> canonical_at d n hash /\ numbered d hash m /\ n <> m).
Proof.
  intros W [Kc Kn]. assert (O : ordered (d kHeaderNumbers)) by (apply wf_single; [exact W|reflexivity]).
  destruct (check_hashes_ok (d kHeaderNumbers) (d kCanonicalHashes) O Kc Kn) as (l & El & Hl). exists l. split; [exact El|].
  assert (R1 : forall hash n, In (HashNotFound hash n) l <-> canonical_at d n hash /\ forall m, ~ numbered d hash m).
  { intros hash n. rewrite (Hl (HashNotFound hash n)). unfold canonical_at, numbered. split.
    - intros (A & B & C). split; [auto|]. intros m (_ & X). exact (C _ X).
    - intros ((A & B) & C). split; [exact A|]. split; [exact B|]. intros v X. destruct (Kn _ _ X) as (m & Lm & ->). apply (C m). auto. }
  assert (R2 : forall hash n m, In (HashMismatch hash n m) l <-> canonical_at d n hash /\ numbered d hash m /\ n <> m).
  { intros hash n m. rewrite (Hl (HashMismatch hash n m)). unfold canonical_at, numbered. tauto. }
  split; [|split; [exact R1|exact R2]]. split.
  - intros -> n hash C. destruct (lookup (d kHeaderNumbers) hash) as [v|] eqn:Ev.
    + apply lookup_spec in Ev; [|exact O]. destruct (Kn _ _ Ev) as (m & Lm & ->). destruct (N.eq_dec n m) as [->|NE]; [split; assumption|].
      exfalso. apply (proj2 (R2 hash n m)). split; [exact C|]. split; [split; assumption|exact NE].
    + rewrite lookup_none in Ev by exact O. exfalso. apply (proj2 (R1 hash n)). split; [exact C|]. intros m (_ & X). exact (Ev _ X).
  - intros H. destruct l as [|r l]; [reflexivity|]. exfalso. destruct r as [hash n|hash n m].
    + destruct (proj1 (R1 hash n) (or_introl eq_refl)) as (C & X). exact (X n (H n hash C)).
    + destruct (proj1 (R2 hash n m) (or_introl eq_refl)) as (C & (Lm & X) & NE). destruct (H n hash C) as (Ln & Y). apply NE.
      pose proof (ordered_fun _ _ _ _ O X Y) as E. apply be8_inj in E; [now symmetry|assumption|assumption].
Qed.

(** *** Transaction lookup *)
Lemma compact_number_ok v : (length v <= 8)%nat -> compact_number v = Done (be_to_N v).
Proof.
  intros L. unfold compact_number. destruct (left_pad_spec (Outside v) 8 [] I I) as (b & ->). cbn [view_of]. unfold load_big_u64.
  assert (E : length (zeros (8 - length v) ++ v) = 8%nat) by (rewrite app_length, zeros_length; lia). rewrite E. change (8 <? 8)%nat with false. cbv iota.
  rewrite firstn_all2 by (rewrite E; lia). f_equal. apply be_to_N_zeros_app.
Qed.
Section Transactions.
  Variable keccak : bytes -> bytes.
  Variable d : database.
  Hypothesis W : wf_db d.
  Hypothesis S : lookup_shapes d.
  Let t := d kEthTx.
  Lemma txs_ordered : ordered t.
  Proof. apply wf_single; [exact W|reflexivity]. Qed.
  Lemma lookups_ordered : ordered (d kTxLookup).
  Proof. apply wf_single; [exact W|reflexivity]. Qed.

  (** The position at the record of an id, or at the end when there is none. *)
  Definition positioned (p : table) (id : N) : Prop :=
    match p with
    | [] => forall rlp, ~ tx_record d id rlp
    | (k, _) :: _ => k = be_fixed 8 id /\ id < 2 ^ 64 /\ exists pre, t = pre ++ p
    end.
  Lemma positioned_find id : id < 2 ^ 64 -> positioned (find t (be_fixed 8 id)) id.
  Proof.
    intros L. destruct (find_first t (be_fixed 8 id) (ordered_dup t txs_ordered)) as [(E & F)|(pre & v & r & E & Ef & _)].
    - rewrite E. intros rlp (_ & I). exact (F _ I).
    - rewrite Ef. cbn. split; [reflexivity|]. split; [exact L|]. exists pre. exact E.
  Qed.
  Lemma positioned_next k v r id : positioned ((k, v) :: r) id -> positioned r (id + 1).
  Proof.
    intros (-> & L & pre & E).
    assert (Hv : tx_record d id v) by (split; [exact L|]; fold t; rewrite E; apply in_or_app; right; now left).
    assert (D : (exists w, tx_record d (id + 1) w) \/ forall w, ~ tx_record d (id + 1) w).
    { destruct (N.ltb_spec (id + 1) (2 ^ 64)) as [L1|G]; [|right; intros w (X & _); lia].
      destruct (lookup t (be_fixed 8 (id + 1))) as [w|] eqn:Ew.
      - left. exists w. split; [exact L1|]. apply lookup_spec; [exact txs_ordered|exact Ew].
      - right. rewrite lookup_none in Ew by exact txs_ordered. intros w (_ & X). exact (Ew _ X). }
    destruct D as [(w & L1 & I)|D].
    - destruct (next_id t txs_ordered (ls_txs d S) pre id v r w E L1 I) as (r' & ->). split; [reflexivity|]. split; [exact L1|].
      exists (pre ++ [(be_fixed 8 id, v)]). rewrite <- app_assoc. exact E.
    - destruct r as [|[k x] r]; [exact D|]. exfalso.
      pose proof (ls_txs d S) as K. unfold keys8 in K. fold t in K. rewrite E in K. rewrite Forall_forall in K.
      destruct (K (k, x)) as (j & Lj & Ej); [apply in_or_app; right; right; now left|]. cbn [fst] in Ej. subst k.
      pose proof txs_ordered as O. rewrite E in O. apply sorted_app in O as (_ & O & _). apply sorted_cons_inv in O as (_ & O).
      specialize (O _ (or_introl eq_refl)). cbn [fst] in O. apply be8_lt in O; [|assumption|assumption].
      assert (Hx : tx_record d j x) by (split; [exact Lj|]; fold t; rewrite E; apply in_or_app; right; right; now left).
      destruct (N.eq_dec j (id + 1)) as [->|NE]; [exact (D _ Hx)|].
      destruct (ls_no_gap d S id (id + 1) j v x) as (u & Hu); [lia|lia|exact Hv|exact Hx|]. exact (D _ Hu).
  Qed.
  Lemma tx_record_fun id v w : tx_record d id v -> tx_record d id w -> v = w.
  Proof. intros (_ & A) (_ & B). exact (ordered_fun t _ _ _ txs_ordered A B). Qed.

  Lemma check_transactions_ok block expected count base p : forall i, positioned p (base + i) -> i <= count ->
    exists l j, check_transactions keccak (d kTxLookup) p block expected count i = Done (l, j) /\
      (l = [] /\ j = count <-> forall x, i <= x -> x < count -> exists rlp, tx_record d (base + x) rlp /\ looked_up d (keccak rlp) expected).
  Proof.
    induction p as [|[k rlp] rest IH]; intros i P Le.
    - exists [], i. split; [reflexivity|]. split.
      + intros (_ & ->) x X1 X2. lia.
      + intros H. split; [reflexivity|]. destruct (N.eq_dec i count) as [E|NE]; [exact E|]. exfalso. destruct (H i) as (rlp & R & _); [lia|lia|]. exact (P _ R).
    - cbn [check_transactions]. destruct (N.ltb_spec i count) as [L|G].
      2: { exists [], i. split; [reflexivity|]. split; [intros _ x X1 X2; lia|]. intros _. split; [reflexivity|lia]. }
      pose proof (positioned_next _ _ _ _ P) as P'. replace (base + i + 1) with (base + (i + 1)) in P' by lia.
      destruct (IH (i + 1) P' ltac:(lia)) as (l & j & E & Hl). rewrite E.
      destruct P as (-> & Lid & pre & Et).
      assert (R : tx_record d (base + i) rlp) by (split; [exact Lid|]; fold t; rewrite Et; apply in_or_app; right; now left).
      assert (F : exists found, match lookup (d kTxLookup) (keccak rlp) with
                    | Some value => do actual := compact_number value in Done (if negb (actual =? expected) then [LookupMismatch (keccak rlp) expected actual] else [])
                    | None => Done [LookupNotFound block i (keccak rlp)]
                    end = Done found /\ (found = [] <-> looked_up d (keccak rlp) expected)).
      { destruct (lookup (d kTxLookup) (keccak rlp)) as [v|] eqn:Ev.
        - apply lookup_spec in Ev; [|exact lookups_ordered]. rewrite compact_number_ok by (apply (ls_numbers d S _ _ Ev)). cbn [obind]. eexists. split; [reflexivity|].
          destruct (N.eqb_spec (be_to_N v) expected) as [Eq|NEq]; cbn [negb].
          + split; [|reflexivity]. intros _. exists v. auto.
          + split; [discriminate|]. intros (w & Iw & Ew). exfalso. apply NEq. rewrite (ordered_fun _ _ _ _ lookups_ordered Ev Iw). exact Ew.
        - rewrite lookup_none in Ev by exact lookups_ordered. eexists. split; [reflexivity|]. split; [discriminate|]. intros (w & Iw & _). exfalso. exact (Ev _ Iw). }
      destruct F as (found & -> & Hf). cbn [obind]. exists (found ++ l), j. split; [reflexivity|]. split.
      + intros (A & B). apply app_eq_nil in A as (-> & ->). intros x X1 X2. destruct (N.eq_dec x i) as [->|NE].
        * exists rlp. split; [exact R|]. now apply Hf.
        * apply (proj1 Hl); [auto|lia|exact X2].
      + intros H. destruct (H i) as (rlp' & R' & U); [lia|exact L|]. rewrite (tx_record_fun _ _ _ R' R) in U. apply Hf in U. subst found.
        destruct (proj2 Hl) as (-> & ->); [intros x X1 X2; apply H; lia|]. auto.
  Qed.

  Lemma check_bodies_ok bodies : forall expected, expected + N.of_nat (length bodies) < 2 ^ 64 -> (forall e, In e bodies -> In e (d kBlockBodies)) ->
    exists l, check_bodies keccak (d kTxLookup) t bodies expected = Done l /\
      (l = [] <-> forall i k v b, nth_error bodies i = Some (k, v) -> wf_stored b -> v = RLP (stored_item b) -> body_indexed keccak d b (expected + N.of_nat i)).
  Proof.
    induction bodies as [|[key value] rest IH]; intros expected L Sub.
    - exists []. split; [reflexivity|]. split; [|reflexivity]. intros _ [|i] k v b E; discriminate.
    - cbn [length] in L. destruct (IH (expected + 1)) as (l & E & Hl); [lia|intros e I; apply Sub; now right|].
      destruct (ls_bodies d S key value (Sub _ (or_introl eq_refl))) as (n & hash & b & Ln & Lh & Wb & -> & ->).
      cbn [check_bodies]. rewrite load_be8_app by exact Ln. cbn [obind]. pose proof (stored_decode b [] Wb) as SD. rewrite app_nil_r in SD. rewrite SD. cbn [obind].
      rewrite N.mod_small by lia. rewrite E.
      assert (F : exists found, (if 0 <? sb_count b then
                    do (l, i) := check_transactions keccak (d kTxLookup) (find t (be_fixed 8 (sb_base b))) n expected (sb_count b) 0 in
                    Done (l ++ (if negb (i =? sb_count b) then [LookupCount n (sb_count b) i] else []))
                  else Done []) = Done found /\ (found = [] <-> body_indexed keccak d b expected)).
      { destruct (N.ltb_spec 0 (sb_count b)) as [Lc|Gc].
        - destruct (check_transactions_ok n expected (sb_count b) (sb_base b) (find t (be_fixed 8 (sb_base b))) 0) as (l0 & j & -> & H0).
          + rewrite N.add_0_r. apply positioned_find. apply Wb.
          + lia.
          + cbn [obind]. eexists. split; [reflexivity|]. unfold body_indexed. split.
            * intros A. apply app_eq_nil in A as (A1 & A2). destruct (N.eqb_spec j (sb_count b)) as [Ej|]; [|discriminate]. intros x X. apply (proj1 H0); [auto|lia|exact X].
            * intros A. destruct (proj2 H0) as (-> & ->); [intros x _ X; now apply A|]. now rewrite N.eqb_refl.
        - exists []. split; [reflexivity|]. split; [|reflexivity]. intros _ x X. lia. }
      destruct F as (found & Ef & Hf). rewrite Ef. cbn [obind]. exists (found ++ l). split; [reflexivity|]. split.
      + intros A. apply app_eq_nil in A as (-> & ->). intros [|i] k v b' En Wb' Ev.
        * assert (En' : (be_fixed 8 n ++ hash, RLP (stored_item b)) = (k, v)) by (apply (f_equal (fun o => match o with Some x => x | None => (k, v) end)) in En; exact En).
          apply pair_equal_spec in En' as (_ & Ek). rewrite N.add_0_r.
          assert (b' = b).
          { pose proof (stored_decode b [] Wb) as D1. pose proof (stored_decode b' [] Wb') as D2. rewrite Ek, Ev in D1. rewrite D1 in D2. now injection D2. }
          subst b'. now apply Hf.
        * replace (expected + N.of_nat (Datatypes.S i)) with (expected + 1 + N.of_nat i) by lia. apply (proj1 Hl eq_refl i k v b'); assumption.
      + intros A. rewrite (proj2 Hf); [|replace expected with (expected + N.of_nat 0) by lia; eapply (A 0%nat); [reflexivity|exact Wb|reflexivity]].
        rewrite (proj2 Hl); [reflexivity|]. intros i k v b' En Wb' Ev. replace (expected + 1 + N.of_nat i) with (expected + N.of_nat (Datatypes.S i)) by lia. eapply (A (Datatypes.S i)); eassumption.
  Qed.
  (** The command is silent iff every body is indexed under its position in the table. *)
  Lemma tx_lookup_exact : exists l, check_tx_lookup keccak d = Done l /\
    (l = [] <-> forall i k b, nth_error (d kBlockBodies) i = Some (k, RLP (stored_item b)) -> wf_stored b -> body_indexed keccak d b (N.of_nat i)).
  Proof.
    destruct (check_bodies_ok (d kBlockBodies) 0) as (l & E & H); [exact (ls_few d S)|auto|]. exists l. split; [exact E|]. rewrite H. split.
    - intros A i k b En Wb. apply (A i k (RLP (stored_item b)) b En Wb eq_refl).
    - intros A i k v b En Wb ->. apply (A i k b En Wb).
  Qed.
End Transactions.
