(** What the loop of the transaction lookup stage collects from the bodies it is given. *)
From Verif Require Import Base BaseFacts RlpSpec RlpModel BlockModel BlockSpec CodecLemmas UtilModel UtilProofs DbTable DbModel DbSpec DbProofs DbBlockProofs IndexModel ToolModel ToolSpec ToolProofs ToolCases.

(** A block number of 8 bytes without its leading zeros; block 0 keeps them. *)
Definition short_number (n : N) (v : bytes) : Prop := (n = 0 /\ v = zeros 8) \/ exists z x r, x <> 0 /\ v = x :: r /\ be_fixed 8 n = zeros z ++ v.
Lemma strip_zeros_spec b : exists z, b = zeros z ++ strip_zeros b /\ match strip_zeros b with [] => True | x :: _ => x <> 0 end.
Proof.
  induction b as [|x b (z & E & H)]; [exists 0%nat; now split|]. cbn [strip_zeros]. destruct (N.eqb_spec x 0) as [->|NE]; [|exists 0%nat; now split].
  exists (S z). split; [|exact H]. change (zeros (S z)) with (0 :: zeros z). cbn [app]. now rewrite <- E.
Qed.
Lemma strip_zeros_app z x r : x <> 0 -> strip_zeros (zeros z ++ x :: r) = x :: r.
Proof. intros H. induction z as [|z IH]; [cbn; now rewrite (proj2 (N.eqb_neq x 0) H)|exact IH]. Qed.
Lemma compact_spec n v : n < 2 ^ 64 -> v = compact (be_fixed 8 n) <-> short_number n v.
Proof.
  intros L. unfold compact, short_number. destruct (strip_zeros_spec (be_fixed 8 n)) as (z & E & H). split.
  - intros ->. destruct (strip_zeros (be_fixed 8 n)) as [|x r] eqn:Q; [left|right; exists z, x, r; auto]. rewrite app_nil_r in E. assert (z = 8%nat) as -> by (rewrite <- (zeros_length z), <- E; apply be_fixed_length).
    split; [|exact E]. apply (be_fixed_inj 8 n 0); [exact L|reflexivity|]. rewrite E. reflexivity.
  - intros [(-> & ->)|(z' & x & r & Nx & -> & E')]; [reflexivity|]. rewrite E', strip_zeros_app by exact Nx. reflexivity.
Qed.

Section Extract.
  Variable keccak : bytes -> bytes.
  Variable d : database.
  Hypothesis W : wf_db d.
  Hypothesis S : lookup_shapes d.
  Lemma entries_of number count base p : forall i, positioned d p (base + i) ->
    forall h v, In (h, v) (lookup_entries keccak count p number) <-> v = number /\ exists x rlp, i <= x /\ x < i + N.of_nat count /\ tx_record d (base + x) rlp /\ h = keccak rlp /\ forall y, i <= y -> y <= x -> exists r, tx_record d (base + y) r.
  Proof.
    revert p. induction count as [|count IH]; intros p i P h v; [destruct p; cbn; (split; [intros []|]); intros (_ & x & rlp & A & B & _); lia|].
    destruct p as [|[k rlp] rest].
    - cbn. split; [intros []|]. intros (_ & x & rlp & A & _ & _ & _ & F). destruct (F i) as (r & R); [lia|lia|]. exact (P _ R).
    - pose proof (positioned_next keccak d W S _ _ _ _ P) as P'. replace (base + i + 1) with (base + (i + 1)) in P' by lia. destruct P as (-> & Lid & pre & Et).
      assert (R : tx_record d (base + i) rlp) by (split; [exact Lid|]; rewrite Et; apply in_or_app; right; now left).
      cbn [lookup_entries In]. rewrite (IH rest (i + 1) P' h v). split.
      + intros [E|(-> & x & r & A & B & C & D & F)].
        * injection E as <- <-. split; [reflexivity|]. exists i, rlp. split; [lia|]. split; [lia|]. split; [exact R|]. split; [reflexivity|]. intros y Y1 Y2. assert (y = i) as -> by lia. now exists rlp.
        * split; [reflexivity|]. exists x, r. split; [lia|]. split; [lia|]. split; [exact C|]. split; [exact D|]. intros y Y1 Y2. destruct (N.eq_dec y i) as [->|NE]; [now exists rlp|apply F; lia].
      + intros (-> & x & r & A & B & C & -> & F). destruct (N.eq_dec x i) as [->|NE]; [left; now rewrite (tx_record_fun d W _ _ _ C R)|].
        right. split; [reflexivity|]. exists x, r. split; [lia|]. split; [lia|]. split; [exact C|]. split; [reflexivity|]. intros y Y1 Y2. apply F; lia.
  Qed.
  (** A transaction the loop comes to: all those of its body before it are there. *)
  Definition reached (b : stored_body) (i : N) (rlp : bytes) : Prop := i < sb_count b /\ tx_record d (sb_base b + i) rlp /\ forall j, j <= i -> exists r, tx_record d (sb_base b + j) r.
  Theorem lookups_extracted bodies : forall n0, (forall e, In e bodies -> In e (d kBlockBodies)) ->
    exists es m, extract_lookups keccak bodies (d kEthTx) n0 = Done (es, m)
      /\ (forall h v, In (h, v) es <-> exists n hash b i rlp, n < 2 ^ 64 /\ wf_stored b /\ In (be_fixed 8 n ++ hash, RLP (stored_item b)) bodies /\ reached b i rlp /\ h = keccak rlp /\ short_number n v)
      /\ match rev bodies with [] => m = n0 | (k, _) :: _ => exists hash, k = be_fixed 8 m ++ hash end.
  Proof.
    induction bodies as [|[key value] rest IH]; intros n0 Sub.
    - exists [], n0. split; [reflexivity|]. split; [|reflexivity]. intros h v. split; [intros []|]. intros (n & hash & b & i & rlp & _ & _ & [] & _).
    - destruct (ls_bodies d S key value (Sub _ (or_introl eq_refl))) as (n & hash & b & Ln & Lh & Wb & -> & ->).
      destruct (IH n) as (es & m & E & H & Hm); [intros e I; apply Sub; now right|].
      cbn [extract_lookups]. pose proof (stored_decode b [] Wb) as SD. rewrite app_nil_r in SD. rewrite SD. cbn [obind]. rewrite load_be8_app by exact Ln. cbn [obind]. rewrite E. cbn [obind].
      set (l := if sb_count b =? 0 then [] else _).
      assert (Hl : forall h v, In (h, v) l <-> exists i rlp, reached b i rlp /\ h = keccak rlp /\ short_number n v).
      { intros h v. assert (F8 : firstn 8 (be_fixed 8 n ++ hash) = be_fixed 8 n) by (apply firstn_app_exact; symmetry; apply be_fixed_length). subst l. rewrite F8. destruct (N.eqb_spec (sb_count b) 0) as [Z|NZ].
        - split; [intros []|]. intros (i & rlp & (A & _) & _). lia.
        - assert (P : positioned d (find (d kEthTx) (be_fixed 8 (sb_base b))) (sb_base b + 0)) by (rewrite N.add_0_r; apply positioned_find; [exact W|apply Wb]).
          rewrite (entries_of _ _ _ _ 0 P h v), (compact_spec n v Ln). split.
          + intros (Q & x & rlp & A & B & C & -> & F). exists x, rlp. split; [|now split]. split; [lia|]. split; [exact C|]. intros j J. apply F; lia.
          + intros (x & rlp & (A & C & F) & -> & Q). split; [exact Q|]. exists x, rlp. split; [lia|]. split; [lia|]. split; [exact C|]. split; [reflexivity|]. intros y _ Y. now apply F. }
      exists (l ++ es), m. split; [reflexivity|]. split.
      + intros h v. rewrite in_app_iff, Hl, H. split.
        * intros [(i & rlp & A & B & C)|(n' & hash' & b' & i & rlp & A & B & C & D)]; [exists n, hash, b, i, rlp; split; [exact Ln|]; split; [exact Wb|]; split; [now left|]; auto|].
          exists n', hash', b', i, rlp. split; [exact A|]. split; [exact B|]. split; [now right|exact D].
        * intros (n' & hash' & b' & i & rlp & A & B & [C|C] & D & -> & Q); [left|right; exists n', hash', b', i, rlp; auto 10].
          apply pair_equal_spec in C as (Ck & Cv). assert (b' = b) as -> by (pose proof (stored_decode b [] Wb) as D1; pose proof (stored_decode b' [] B) as D2; rewrite Cv, D2 in D1; now injection D1).
          assert (n' = n) as ->. { apply (f_equal (firstn 8)) in Ck. rewrite !firstn_app_exact in Ck by (symmetry; apply be_fixed_length). symmetry. apply (be_fixed_inj 8 n n'); [exact Ln|exact A|exact Ck]. }
          exists i, rlp. auto.
      + cbn [rev]. destruct (rev rest) as [|[k v] q] eqn:Q; cbn [app]; [subst m; now exists hash|exact Hm].
  Qed.
End Extract.
Lemma lookups_final keccak d : wf_db d -> lookup_shapes d -> exists es m, extract_lookups keccak (d kBlockBodies) (d kEthTx) 0 = Done (es, m)
  /\ forall h v, In (h, v) es <-> exists n b i rlp, stored_body_at d n b /\ reached d b i rlp /\ h = keccak rlp /\ short_number n v.
Proof.
  intros W S. destruct (lookups_extracted keccak d W S (d kBlockBodies) 0 (fun e I => I)) as (es & m & E & H & _). exists es, m. split; [exact E|]. intros h v. rewrite H. split.
  - intros (n & hash & b & i & rlp & A & B & C & D & F & G). exists n, b, i, rlp. split; [|auto]. split; [exact A|]. split; [exact B|]. exists hash. split; [|exact C].
    destruct (ls_bodies d S _ _ C) as (n' & hash' & b' & _ & L' & _ & Q & _). apply (f_equal (@length N)) in Q. rewrite !app_length, !be_fixed_length in Q. lia.
  - intros (n & b & i & rlp & (A & B & hash & _ & C) & D & F & G). exists n, hash, b, i, rlp. auto 10.
Qed.
Lemma lookups_case keccak : wf_db (plain_db keccak) /\ lookup_shapes (plain_db keccak)
  /\ extract_lookups keccak (plain_db keccak kBlockBodies) (plain_db keccak kEthTx) 0 = Done ([(keccak some_tx, [1])], 1).
Proof. destruct (plain_ok keccak) as (A & B & _). split; [exact A|]. split; [exact B|]. vm_compute. reflexivity. Qed.
Lemma lookups_reached keccak d : wf_db d -> lookup_shapes d -> forall bodies n0, (forall e, In e bodies -> In e (d kBlockBodies)) ->
  exists es m, extract_lookups keccak bodies (d kEthTx) n0 = Done (es, m) /\ match rev bodies with [] => m = n0 | (k, _) :: _ => exists hash, k = be_fixed 8 m ++ hash end.
Proof. intros W S bodies n0 Sub. destruct (lookups_extracted keccak d W S bodies n0 Sub) as (es & m & E & _ & H). now exists es, m. Qed.
