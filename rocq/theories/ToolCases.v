(** Concrete cases for the checking commands. *)
From Coq Require Import Strings.String.
From Verif Require Import Base BaseFacts RlpSpec RlpModel RlpProofs TxModel BlockModel BlockSpec BlockProofs CodecLemmas DbTable DbModel DbSpec DbProofs DbBlockProofs DbCases IndexModel ToolModel ToolSpec ToolProofs ToolLemmas ToolPow.
From Verif Require Import KeccakSpec EthashSpec EthashModel EthashProofs3 EthashLemmas EthashCases.

(** *** Block hashes: one right, one wrong, one missing *)
Definition hash_db : database :=
  put (put (put (put (put empty_db kCanonicalHashes (be_fixed 8 0) (repeat 1 32)) kCanonicalHashes (be_fixed 8 1) (repeat 2 32)) kCanonicalHashes (be_fixed 8 2) (repeat 3 32))
    kHeaderNumbers (repeat 1 32) (be_fixed 8 0)) kHeaderNumbers (repeat 2 32) (be_fixed 8 5).
Lemma hash_db_ok : wf_db hash_db /\ number_shapes hash_db.
Proof.
  split; [repeat apply put_wf; apply empty_wf|]. constructor; cbn.
  - intros k v [E|[E|[E|[]]]]; injection E as <- <-; [exists 0|exists 1|exists 2]; split; reflexivity.
  - intros k v [E|[E|[]]]; injection E as <- <-; [exists 0|exists 5]; split; reflexivity.
Qed.
Lemma hash_db_reports : check_blockhashes hash_db = Done [HashMismatch (repeat 2 32) 1 5; HashNotFound (repeat 3 32) 2].
Proof. vm_compute. reflexivity. Qed.

(** *** Transaction lookup *)
Definition body_of (base count : N) : bytes := RLP (stored_item (mkStored base count [])).
Lemma no_body_wf : wf_stored (mkStored 0 0 []).
Proof. repeat split; try reflexivity. constructor. Qed.
Lemma one_body_wf : wf_stored (mkStored 0 1 []).
Proof. repeat split; try reflexivity. constructor. Qed.
Definition some_hash (n : N) : bytes := repeat n 32.
Definition add_body (d : database) (x : N * N * bool) : database :=
  put d kBlockBodies (be_fixed 8 (fst (fst x)) ++ some_hash (snd (fst x))) (body_of 0 (if snd x then 1 else 0)).
Section Lookup.
  Variable keccak : bytes -> bytes.
  Definition some_tx : bytes := [0xC1; 5].
  (** A table of bodies: number, hash and whether the block has the (only) transaction. *)
  Definition lookup_db (bodies : list (N * N * bool)) (number : N) : database :=
    put (put (fold_left add_body bodies empty_db)
      kEthTx (be_fixed 8 0) some_tx) kTxLookup (keccak some_tx) [number].
  (** Blocks 0 and 1, the transaction in block 1. *)
  Definition plain_db : database := lookup_db [(0, 1, false); (1, 2, true)] 1.
  (** Two competing blocks 1, the transaction in block 2. *)
  Definition fork_db : database := lookup_db [(0, 1, false); (1, 2, false); (1, 3, false); (2, 4, true)] 2.
  (** Blocks 0 and 5; the transaction of block 5 leads to block 1. *)
  Definition wrong_db : database := lookup_db [(0, 1, false); (5, 2, true)] 1.
  Lemma lookup_db_wf bodies number : wf_db (lookup_db bodies number).
  Proof.
    unfold lookup_db. apply put_wf, put_wf. assert (G : forall d, wf_db d -> wf_db (fold_left add_body bodies d)).
    { induction bodies as [|x l IH]; intros d H; [exact H|]. cbn [fold_left]. unfold add_body at 2. apply IH, put_wf, H. }
    apply G, empty_wf.
  Qed.
  Lemma lookup_db_txs bodies number : lookup_db bodies number kEthTx = [(be_fixed 8 0, some_tx)].
  Proof.
    unfold lookup_db. rewrite put_other by discriminate. unfold put. rewrite set_table_same. cbn [multi].
    assert (G : forall d, d kEthTx = [] -> fold_left add_body bodies d kEthTx = []).
    { induction bodies as [|x l IH]; intros d H; [exact H|]. cbn [fold_left]. apply IH. unfold add_body. rewrite put_other by discriminate. exact H. }
    rewrite G by reflexivity. reflexivity.
  Qed.
  Lemma lookup_db_lookup bodies number : lookup_db bodies number kTxLookup = [(keccak some_tx, [number])].
  Proof.
    unfold lookup_db. unfold put at 1. rewrite set_table_same. cbn [multi]. rewrite put_other by discriminate.
    assert (G : forall d, d kTxLookup = [] -> fold_left add_body bodies d kTxLookup = []).
    { induction bodies as [|x l IH]; intros d H; [exact H|]. cbn [fold_left]. apply IH. unfold add_body. rewrite put_other by discriminate. exact H. }
    rewrite G by reflexivity. reflexivity.
  Qed.
  Lemma lookup_db_shapes bodies number : N.of_nat (length (lookup_db bodies number kBlockBodies)) < 2 ^ 64 ->
    (forall k v, In (k, v) (lookup_db bodies number kBlockBodies) -> exists n h f, n < 2 ^ 64 /\ k = be_fixed 8 n ++ some_hash h /\ v = body_of 0 (if f : bool then 1 else 0)) ->
    lookup_shapes (lookup_db bodies number).
  Proof.
    intros L B. constructor.
    - intros k v I. destruct (B k v I) as (n & h & f & Ln & -> & ->). exists n, (some_hash h). eexists. split; [exact Ln|]. split; [apply repeat_length|].
      split; [|split; [reflexivity|unfold body_of; reflexivity]]. destruct f; [exact one_body_wf|exact no_body_wf].
    - exact L.
    - rewrite lookup_db_txs. constructor; [|constructor]. exists 0. split; reflexivity.
    - intros a b c v w L1 L2 (La & Ia) (Lc & Ic). exfalso. rewrite lookup_db_txs in Ia, Ic. destruct Ia as [Ia|[]], Ic as [Ic|[]].
      apply pair_equal_spec in Ia as (Ia & _), Ic as (Ic & _). apply be8_inj in Ia, Ic; try assumption; try reflexivity. lia.
    - intros k v I. rewrite lookup_db_lookup in I. destruct I as [I|[]]. apply pair_equal_spec in I as (_ & <-). cbn. lia.
  Qed.
  Lemma bodies_indexed bodies number b : sb_base b = 0 -> sb_count b <= 1 -> body_indexed keccak (lookup_db bodies number) b number.
  Proof.
    intros Hb Hc i Hi. replace i with 0 by lia. rewrite Hb. exists some_tx. split.
    - split; [reflexivity|]. rewrite lookup_db_txs. now left.
    - exists [number]. split; [|cbn; lia]. rewrite lookup_db_lookup. now left.
  Qed.
  Lemma plain_bodies : plain_db kBlockBodies = [(be_fixed 8 0 ++ some_hash 1, body_of 0 0); (be_fixed 8 1 ++ some_hash 2, body_of 0 1)].
  Proof. vm_compute. reflexivity. Qed.
  Lemma fork_bodies : fork_db kBlockBodies = [(be_fixed 8 0 ++ some_hash 1, body_of 0 0); (be_fixed 8 1 ++ some_hash 2, body_of 0 0); (be_fixed 8 1 ++ some_hash 3, body_of 0 0); (be_fixed 8 2 ++ some_hash 4, body_of 0 1)].
  Proof. vm_compute. reflexivity. Qed.
  Lemma wrong_bodies : wrong_db kBlockBodies = [(be_fixed 8 0 ++ some_hash 1, body_of 0 0); (be_fixed 8 5 ++ some_hash 2, body_of 0 1)].
  Proof. vm_compute. reflexivity. Qed.
  Lemma body_eq b f : wf_stored b -> body_of 0 (if f : bool then 1 else 0) = RLP (stored_item b) -> b = mkStored 0 (if f then 1 else 0) [].
  Proof.
    intros Wb E. assert (Wf : wf_stored (mkStored 0 (if f then 1 else 0) [])) by (destruct f; [exact one_body_wf|exact no_body_wf]).
    pose proof (stored_decode b [] Wb) as D1. pose proof (stored_decode _ [] Wf) as D2. unfold body_of in E. rewrite E in D2. rewrite D2 in D1. now injection D1.
  Qed.
End Lookup.
Section LookupCases.
  Variable keccak : bytes -> bytes.
  Lemma plain_ok : wf_db (plain_db keccak) /\ lookup_shapes (plain_db keccak) /\ bodies_from_zero (plain_db keccak) /\ lookup_right keccak (plain_db keccak).
  Proof.
    split; [apply lookup_db_wf|]. split; [|split].
    - apply lookup_db_shapes; change (lookup_db keccak [(0, 1, false); (1, 2, true)] 1) with (plain_db keccak); rewrite plain_bodies; [reflexivity|].
      intros k v [E|[E|[]]]; apply pair_equal_spec in E as (<- & <-); [exists 0, 1, false|exists 1, 2, true]; repeat split; reflexivity.
    - intros i k v. rewrite plain_bodies. destruct i as [|[|[|i]]]; cbn [nth_error]; intros E; try discriminate; apply (f_equal (fun o => match o with Some x => x | None => (k, v) end)) in E; apply pair_equal_spec in E as (<- & _);
        [exists (some_hash 1)|exists (some_hash 2)]; split; reflexivity.
    - intros n b (Ln & Wb & hash & Lh & I). rewrite plain_bodies in I. destruct I as [I|[I|[]]]; apply pair_equal_spec in I as (Ik & Ib); apply be8_app_inj in Ik as (<- & _); try assumption; try reflexivity.
      + apply (body_eq b false Wb) in Ib. subst b. intros i Hi. cbn in Hi. lia.
      + apply (body_eq b true Wb) in Ib. subst b. apply bodies_indexed; cbn; lia.
  Qed.
  Lemma fork_ok : wf_db (fork_db keccak) /\ lookup_shapes (fork_db keccak) /\ lookup_right keccak (fork_db keccak) /\
    nth_error (fork_db keccak kBlockBodies) 3 = Some (be_fixed 8 2 ++ some_hash 4, RLP (stored_item (mkStored 0 1 []))) /\ wf_stored (mkStored 0 1 []).
  Proof.
    split; [apply lookup_db_wf|]. split; [|split; [|split; [now rewrite fork_bodies|exact one_body_wf]]].
    - apply lookup_db_shapes; change (lookup_db keccak [(0, 1, false); (1, 2, false); (1, 3, false); (2, 4, true)] 2) with (fork_db keccak); rewrite fork_bodies; [reflexivity|].
      intros k v [E|[E|[E|[E|[]]]]]; apply pair_equal_spec in E as (<- & <-); [exists 0, 1, false|exists 1, 2, false|exists 1, 3, false|exists 2, 4, true]; repeat split; reflexivity.
    - intros n b (Ln & Wb & hash & Lh & I). rewrite fork_bodies in I. destruct I as [I|[I|[I|[I|[]]]]]; apply pair_equal_spec in I as (Ik & Ib); apply be8_app_inj in Ik as (<- & _); try assumption; try reflexivity.
      1-3: apply (body_eq b false Wb) in Ib; subst b; intros i Hi; cbn in Hi; lia.
      apply (body_eq b true Wb) in Ib. subst b. apply bodies_indexed; cbn; lia.
  Qed.
  Lemma wrong_ok : wf_db (wrong_db keccak) /\ lookup_shapes (wrong_db keccak) /\ check_tx_lookup keccak (wrong_db keccak) = Done [] /\ ~ lookup_right keccak (wrong_db keccak).
  Proof.
    assert (W : wf_db (wrong_db keccak)) by apply lookup_db_wf.
    assert (S : lookup_shapes (wrong_db keccak)).
    { apply lookup_db_shapes; change (lookup_db keccak [(0, 1, false); (5, 2, true)] 1) with (wrong_db keccak); rewrite wrong_bodies; [reflexivity|].
      intros k v [E|[E|[]]]; apply pair_equal_spec in E as (<- & <-); [exists 0, 1, false|exists 5, 2, true]; repeat split; reflexivity. }
    split; [exact W|]. split; [exact S|]. split.
    - destruct (tx_lookup_exact keccak _ W S) as (l & E & H). rewrite E. f_equal. apply H. intros i k b En Wb. rewrite wrong_bodies in En.
      destruct i as [|[|[|i]]]; cbn [nth_error] in En; try discriminate; apply (f_equal (fun o => match o with Some x => x | None => (k, []) end)) in En; apply pair_equal_spec in En as (_ & Eb).
      + apply (body_eq b false Wb) in Eb. subst b. intros i Hi. cbn in Hi. lia.
      + apply (body_eq b true Wb) in Eb. subst b. apply bodies_indexed; cbn; lia.
    - intros R. assert (B : body_indexed keccak (wrong_db keccak) (mkStored 0 1 []) 5).
      { apply R. split; [reflexivity|]. split; [exact one_body_wf|]. exists (some_hash 2). split; [reflexivity|]. rewrite wrong_bodies. right. now left. }
      destruct (B 0 ltac:(reflexivity)) as (rlp & (_ & Ir) & v & Iv & Ev).
      assert (X : body_indexed keccak (wrong_db keccak) (mkStored 0 1 []) 1) by (apply bodies_indexed; cbn; lia).
      destruct (X 0 ltac:(reflexivity)) as (rlp' & Rr' & U'). rewrite (tx_record_fun _ W 0 rlp' rlp Rr' (conj eq_refl Ir)) in U'.
      pose proof (looked_up_fun _ _ _ _ W U' (ex_intro _ v (conj Iv Ev))). discriminate.
  Qed.
End LookupCases.

(** *** Hashed state *)
Section HashedCases.
  Variable keccak : bytes -> bytes.
  Definition an_address : bytes := repeat 9 20.
  (** One account, hashed as it should be. *)
  Definition account_db : database := put (put empty_db kPlainState an_address [1; 2]) kHashedAccounts (keccak an_address) [1; 2].
  Lemma account_db_ok : wf_db account_db /\ account_in account_db an_address [1; 2] /\ accounts_match keccak account_db /\ codes_match keccak account_db /\ slots_match keccak account_db.
  Proof.
    split; [apply put_wf, put_wf, empty_wf|]. split; [split; [reflexivity|]; now left|]. split; [|split].
    - intros a v (_ & [E|[]]). apply pair_equal_spec in E as (<- & <-). now left.
    - intros a i v (_ & _ & []).
    - intros a i l s (La & Li & _ & [E|[]]). apply pair_equal_spec in E as (E & _). apply (f_equal (@length N)) in E. rewrite app_length, La, Li in E. discriminate.
  Qed.
  (** A slot of which the hashed tables know nothing. *)
  Definition slot_db : database := put empty_db kPlainState (an_address ++ be_fixed 8 1) (repeat 3 32 ++ [4]).
  Lemma slot_db_ok : wf_db slot_db /\ (forall a v, ~ account_in slot_db a v) /\ check_hashstate keccak slot_db = Done [] /\ ~ slots_match keccak slot_db.
  Proof.
    assert (W : wf_db slot_db) by apply put_wf, empty_wf.
    assert (No : forall a v, ~ account_in slot_db a v).
    { intros a v (La & [E|[]]). apply pair_equal_spec in E as (E & _). apply (f_equal (@length N)) in E. rewrite La in E. discriminate. }
    split; [exact W|]. split; [exact No|]. split.
    - apply hashstate_blind; [exact W|exact No|]. intros a i v (_ & _ & []).
    - intros M. apply (M an_address (be_fixed 8 1) (repeat 3 32) [4]). repeat split. now left.
  Qed.
End HashedCases.

(** *** Proof of work *)
Definition with_mix (mix : bytes) : block_header :=
  mkHdr (repeat 1 32) (repeat 2 32) (repeat 3 20) (repeat 4 32) (repeat 5 32) (repeat 6 32) (repeat 0 256)
        (2 ^ 40 + 1) 12965000 15000000 21000 1628166822 [0x67; 0x65] mix (repeat 8 8) (Some (10 ^ 9)).
Definition pow_db (mix : bytes) : database :=
  put (put (put empty_db kCanonicalHashes (be_fixed 8 12965000) (some_hash 1))
    kHeaders (be_fixed 8 12965000 ++ some_hash 1) (RLP (header_item (with_mix mix)))) kSyncStageProgress kSendersKey (be_fixed 8 12965000).
Lemma with_mix_ok x : x < 256 -> wf_header (with_mix (repeat x 32)) /\ small_item (header_item (with_mix (repeat x 32))) /\ pow_ranges (with_mix (repeat x 32)).
Proof.
  intros L. assert (Hx : wf_bytes (repeat x 32)) by (apply Forall_forall; intros b B; apply repeat_spec in B; now subst b).
  split; [|split].
  - repeat split; try reflexivity; try wfb; exact Hx.
  - unfold small_item. vm_compute. reflexivity.
  - split; [reflexivity|]. split; [apply hash32_repeat, L|]. split; [wfb|]. repeat split; try reflexivity. discriminate.
Qed.
Lemma pow_db_ok x : x < 256 -> wf_db (pow_db (repeat x 32)) /\ get_stage_progress (pow_db (repeat x 32)) kSendersKey = Done 12965000 /\
  (forall n, 12965000 <= n -> n <= N.min 12965000 12965000 -> canonical_block (pow_db (repeat x 32)) n (with_mix (repeat x 32)) /\ hd_number (with_mix (repeat x 32)) = n /\ pow_ranges (with_mix (repeat x 32))).
Proof.
  intros L. split; [repeat apply put_wf; apply empty_wf|]. split; [reflexivity|]. intros n N1 N2. rewrite N.min_id in N2. replace n with 12965000 by lia.
  destruct (with_mix_ok x L) as (A & B & C). split; [|split; [reflexivity|exact C]]. constructor; [split; assumption|]. exists (some_hash 1). split; [reflexivity|]. split; now left.
Qed.
(** A seal fixes the mix hash: of two headers that differ only there, one is not sealed. *)
Lemma one_unsealed : pow_seal (with_mix (repeat 7 32)) -> ~ pow_seal (with_mix (repeat 9 32)).
Proof.
  intros (r & B & _) (r' & B' & _). unfold with_mix in B, B'. cbn [hd_number hd_nonce hd_mix_hash] in B, B'.
  assert (E : encode_hdr (with_mix (repeat 7 32)) true = encode_hdr (with_mix (repeat 9 32)) true) by reflexivity. unfold with_mix in E. rewrite E in B.
  pose proof (hashimoto_unique _ _ _ _ _ B B') as X. apply pair_equal_spec in X as (X & _). discriminate.
Qed.
Lemma odd_difficulty : hd_difficulty (with_mix (repeat 7 32)) = 1 \/ ~ N.divide (hd_difficulty (with_mix (repeat 7 32))) (2 ^ 256).
Proof. right. intros D. apply N.mod_divide in D; [|discriminate]. revert D. vm_compute. discriminate. Qed.
