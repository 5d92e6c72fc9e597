(** Proofs about stored bodies and reading blocks. *)
From Verif Require Import Base BaseFacts RlpSpec RlpModel RlpProofs TxModel TxSpec TxProofs TxProofs2 TxProofs3 TxProofs4 BlockModel BlockSpec BlockProofs CodecLemmas DbTable DbModel DbSpec DbProofs.

Lemma stored_parts b : wf_stored b -> u64 (sb_base b) /\ u64 (sb_count b) /\ Forall wf_header (sb_ommers b) /\ blen (RLP (Lst (map header_item (sb_ommers b)))) < 2 ^ 64
  /\ blen (concat (map RLP [Num (sb_base b); Num (sb_count b); Lst (map header_item (sb_ommers b))])) < 2 ^ 64.
Proof.
  intros (W1 & W2 & W3 & S). unfold small_item, stored_item in S. pose proof (small_lst _ S) as S2. repeat (split; [assumption|]). split; [|exact S2]. eapply small_in; [exact S2|]. right; right; now left.
Qed.
Lemma stored_encode b : wf_stored b -> encode_stored b = RLP (stored_item b).
Proof.
  intros H. destruct (stored_parts b H) as (U1 & U2 & W & So & S). unfold encode_stored, stored_item. rewrite len64, len64, len_oms by assumption. rewrite enc64, enc64, enc_oms by assumption.
  set (x := RLP (Num (sb_base b))) in *. set (y := RLP (Num (sb_count b))) in *. set (z := RLP (Lst (map header_item (sb_ommers b)))) in *.
  assert (E : concat (map RLP [Num (sb_base b); Num (sb_count b); Lst (map header_item (sb_ommers b))]) = x ++ y ++ z) by (unfold x, y, z; cbn [map concat]; now rewrite app_nil_r).
  change (RLP (Lst ?l)) with (rlp_lst (concat (map RLP l))). rewrite E in S |- *. replace (blen x + blen y + blen z) with (blen (x ++ y ++ z)) by (rewrite !blen_app; lia).
  rewrite encode_header_hdr by exact S. reflexivity.
Qed.
Lemma stored_decode b r : wf_stored b -> decode_stored (RLP (stored_item b) ++ r) = Done (b, r).
Proof.
  intros H. destruct (stored_parts b H) as (U1 & U2 & W & So & S). unfold decode_stored, stored_item.
  change (RLP (Lst ?l)) with (rlp_lst (concat (map RLP l))). rewrite decode_list_header by exact S. cbn [err_handler obind h_list h_payload_length negb]. cbv zeta.
  rewrite payload_assoc, d64 by exact U1. cbn [err_handler obind]. rewrite payload_assoc, d64 by exact U2. cbn [err_handler obind]. rewrite payload_assoc, dec_oms by assumption. cbn [err_handler obind map concat app].
  match goal with |- context [?x =? ?y] => replace (x =? y) with true end; [now destruct b|]. symmetry. apply N.eqb_eq. clear. unfold blen. rewrite !app_length. cbn [List.length]. lia.
Qed.

Section Txs.
  Variable t : table.
  Hypothesis Ho : ordered t.
  Hypothesis K8 : keys8 t.

  (** After the record of an id the cursor moves to the record of the next id, if that one is there. *)
  Lemma next_id pre id v r w : t = pre ++ (be_fixed 8 id, v) :: r -> id + 1 < 2 ^ 64 -> In (be_fixed 8 (id + 1), w) t -> exists r', r = (be_fixed 8 (id + 1), w) :: r'.
  Proof using Ho K8.
    intros E Hid I. pose proof Ho as H. rewrite E in H, I. apply sorted_app in H as (_ & H & Hp). apply sorted_cons_inv in H as (H & Hf).
    apply in_app_or in I as [I|[I|I]].
    - specialize (Hp _ _ I (or_introl eq_refl)). cbn [fst] in Hp. apply be8_lt in Hp; [lia|exact Hid|lia].
    - apply (f_equal fst) in I; cbn [fst] in I. apply be8_inj in I; [lia|lia|exact Hid].
    - destruct r as [|[k x] r]; [destruct I|]. destruct I as [I|I]; [apply pair_equal_spec in I as (-> & ->); now exists r|]. exfalso.
      assert (X : exists j, j < 2 ^ 64 /\ k = be_fixed 8 j). { rewrite E in K8. unfold keys8 in K8. rewrite Forall_forall in K8. apply (K8 (k, x)). apply in_or_app. right. right. now left. }
      destruct X as (j & Hj & ->). specialize (Hf _ (or_introl eq_refl)). cbn [fst] in Hf. apply sorted_cons_inv in H as (_ & H). specialize (H _ I). cbn [fst] in H. apply be8_lt in Hf, H; lia.
  Qed.
  Lemma read_txs_spec txs : forall base pre r, Forall ok_tx txs -> base + N.of_nat (List.length txs) < 2 ^ 64 ->
    (forall i x, nth_error txs i = Some x -> In (be_fixed 8 (base + N.of_nat i), wire_tx x) t) ->
    (match txs with [] => True | x :: _ => t = pre ++ (be_fixed 8 base, wire_tx x) :: r end) ->
    read_txs (match txs with [] => r | x :: _ => (be_fixed 8 base, wire_tx x) :: r end) (List.length txs) = Done (map no_sender txs).
  Proof using Ho K8.
    induction txs as [|x txs IH]; intros base pre r F B I P; [reflexivity|].
    cbn [List.length read_txs map snd to_next tl]. apply Forall_cons_iff in F as ((W & R & Sm) & F').
    assert (D : decode_tx (wire_tx x) = Ok (no_sender x, [])).
    { rewrite <- (app_nil_r (wire_tx x)). rewrite <- encode_tx_is_wire by auto using representable_v. now apply decode_tx_roundtrip. }
    rewrite D. cbn [err_handler obind]. destruct txs as [|y txs].
    - cbn [List.length map]. now destruct r.
    - cbn [List.length] in B. assert (Iy : In (be_fixed 8 (base + 1), wire_tx y) t) by exact (I 1%nat y eq_refl).
      destruct (next_id pre base (wire_tx x) r (wire_tx y) P ltac:(lia) Iy) as (r' & ->).
      specialize (IH (base + 1) (pre ++ [(be_fixed 8 base, wire_tx x)]) r' F'). cbn [List.length] in IH. cbn [List.length]. rewrite IH; [reflexivity|lia| |].
      + intros i z Hz. replace (base + 1 + N.of_nat i) with (base + N.of_nat (S i)) by lia. apply I. exact Hz.
      + rewrite <- app_assoc. cbn [app]. exact P.
  Qed.
End Txs.

Lemma read_transactions_spec d base txs : wf_db d -> keys8 (d kEthTx) -> Forall ok_tx txs -> base + N.of_nat (List.length txs) < 2 ^ 64 ->
  (forall i x, nth_error txs i = Some x -> lookup (d kEthTx) (be_fixed 8 (base + N.of_nat i)) = Some (wire_tx x)) ->
  read_transactions d base (N.of_nat (List.length txs)) = Done (map no_sender txs).
Proof.
  intros W K F B L. pose proof (wf_single d kEthTx W eq_refl) as Ho. unfold read_transactions. destruct txs as [|x txs]; [reflexivity|].
  destruct (N.eqb_spec (N.of_nat (List.length (x :: txs))) 0) as [E|_]; [cbn [List.length] in E; lia|]. rewrite Nat2N.id.
  assert (I : forall i y, nth_error (x :: txs) i = Some y -> In (be_fixed 8 (base + N.of_nat i), wire_tx y) (d kEthTx)) by (intros i y Hy; apply lookup_spec; [exact Ho|auto]).
  pose proof (I 0%nat x eq_refl) as I0. change (N.of_nat 0) with 0 in I0. rewrite N.add_0_r in I0.
  destruct (find_first (d kEthTx) (be_fixed 8 base) (ordered_dup _ Ho)) as [(_ & N)|(pre & v & r & E & Ef & _)]; [now apply N in I0|]. rewrite Ef.
  assert (v = wire_tx x). { apply (ordered_fun (d kEthTx) (be_fixed 8 base)); [exact Ho| |exact I0]. rewrite E. apply in_or_app. right. now left. } subst v.
  exact (read_txs_spec (d kEthTx) Ho K (x :: txs) base pre r F B I E).
Qed.

Lemma addresses_concat ss : Forall (fun a => List.length a = 20%nat) ss -> addresses (List.length ss) (concat ss) = ss /\ List.length (concat ss) = (List.length ss * 20)%nat.
Proof.
  induction 1 as [|a ss La F (IH1 & IH2)]; [split; reflexivity|]. cbn [List.length concat addresses]. split.
  - rewrite firstn_app, skipn_app, La, Nat.sub_diag. rewrite firstn_all2, skipn_all2 by lia. cbn [firstn skipn app]. rewrite app_nil_r. now rewrite IH1.
  - rewrite app_length, IH2. lia.
Qed.
Lemma read_senders_spec d n hash ss : Forall (fun a => List.length a = 20%nat) ss ->
  (ss = [] /\ lookup (d kSenders) (be_fixed 8 n ++ hash) = None) \/ lookup (d kSenders) (be_fixed 8 n ++ hash) = Some (concat ss) -> read_senders d n hash = Done ss.
Proof.
  intros F H. unfold read_senders, block_key_hash. destruct H as [(-> & ->)|H]; [reflexivity|]. rewrite H. destruct (addresses_concat ss F) as (E1 & E2). rewrite E2. rewrite Nat.mod_mul by discriminate. cbn [Nat.eqb]. rewrite Nat.div_mul by discriminate. now rewrite E1.
Qed.

Definition stored_txs (b : block) : list transaction := map no_sender (bk_transactions b).
Lemma read_body_spec d n hash b base ss flag : wf_db d -> keys8 (d kEthTx) -> holds_block d n hash b base ss -> wf_holding b base ss ->
  read_body d n hash flag =
    (if flag then if Nat.eqb (List.length ss) (List.length (bk_transactions b))
                  then Done (Some (mkBody (map (fun p => with_sender (fst p) (snd p)) (combine (bk_transactions b) ss)) (bk_ommers b))) else Throws
     else Done (Some (mkBody (stored_txs b) (bk_ommers b)))).
Proof.
  intros W K H V. unfold read_body, block_key_hash. rewrite (hb_body _ _ _ _ _ _ H). rewrite <- (app_nil_r (RLP _)), stored_decode by apply V. cbn [obind sb_base sb_count sb_ommers].
  rewrite read_transactions_spec; [|exact W|exact K|apply V|apply V|apply (hb_txs _ _ _ _ _ _ H)]. cbn [obind]. destruct flag; [|reflexivity].
  rewrite (read_senders_spec d n hash ss); [|apply V|apply (hb_senders _ _ _ _ _ _ H)]. cbn [obind]. rewrite map_length. destruct (Nat.eqb (List.length ss) (List.length (bk_transactions b))); [|reflexivity].
  do 3 f_equal. clear. revert ss. induction (bk_transactions b) as [|x l IH]; intros [|s ss]; try reflexivity. cbn [map combine]. f_equal. apply IH.
Qed.
Lemma read_block_spec d n hash b base ss flag : wf_db d -> keys8 (d kEthTx) -> holds_block d n hash b base ss -> wf_holding b base ss ->
  read_block d n flag =
    (if flag then if Nat.eqb (List.length ss) (List.length (bk_transactions b))
                  then Done (Some (mkBlock (bk_header b) (map (fun p => with_sender (fst p) (snd p)) (combine (bk_transactions b) ss)) (bk_ommers b), hash)) else Throws
     else Done (Some (mkBlock (bk_header b) (stored_txs b) (bk_ommers b), hash))).
Proof.
  intros W K H V. unfold read_block, block_key. rewrite (hb_canonical _ _ _ _ _ _ H). pose proof (hb_hash _ _ _ _ _ _ H) as Lh. rewrite Lh. cbn [Nat.ltb Nat.leb]. cbv zeta. rewrite firstn_all2 by (rewrite Lh; lia).
  unfold read_header at 1, block_key_hash. rewrite (hb_header _ _ _ _ _ _ H). rewrite <- (app_nil_r (RLP _)), decode_hdr_rt by apply V. cbn [err_handler obind].
  rewrite (read_body_spec d n hash b base ss flag W K H V). destruct flag; [|reflexivity]. destruct (Nat.eqb _ _); reflexivity.
Qed.
(** Absent records are reported as such. *)
Lemma read_block_absent d n flag : lookup (d kCanonicalHashes) (be_fixed 8 n) = None -> read_block d n flag = Done None.
Proof. intros E. unfold read_block, block_key. now rewrite E. Qed.
