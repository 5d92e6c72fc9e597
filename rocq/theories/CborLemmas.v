(** CBOR of logs and receipts: final forms, storage through the buffer, and concrete cases. *)
From stdpp Require Import gmap.
From Verif Require Import Base BaseFacts TxModel TypesModel DbTable DbModel DbSpec DbProofs DbCases BufferModel BufferSpec BufferProofs3 CborSpec CborModel CborProofs.

Lemma logs_ok l : logs_fit l -> exists b, cbor_encode_logs l = Done b /\ stands_for b (logs_cbor l).
Proof. intros H. destruct (logs_written l H) as (b & E & R). exists b. split; [exact E|]. now apply only_reading. Qed.
Lemma receipts_ok l : receipts_fit l -> exists b, cbor_encode_receipts l = Done b /\ stands_for b (receipts_cbor l).
Proof. intros H. destruct (receipts_written l H) as (b & E & R). exists b. split; [exact E|]. now apply only_reading. Qed.
Lemma logs_injective l l' : logs_fit l -> logs_fit l' -> cbor_encode_logs l = cbor_encode_logs l' -> l = l'.
Proof.
  intros H H' E. destruct (logs_ok l H) as (b & Eb & (_ & U)). destruct (logs_ok l' H') as (b' & Eb' & (R' & _)). assert (b' = b) as -> by congruence. destruct (U _ _ R') as (X & _). unfold logs_cbor in X. assert (M : map log_cbor l' = map log_cbor l) by congruence.
  symmetry. apply (map_injective log_cbor); [intros x y _ _; apply log_cbor_inj|exact M].
Qed.
Lemma receipts_injective l l' : receipts_fit l -> receipts_fit l' -> cbor_encode_receipts l = cbor_encode_receipts l' -> map kept l = map kept l'.
Proof.
  intros H H' E. destruct (receipts_ok l H) as (b & Eb & (_ & U)). destruct (receipts_ok l' H') as (b' & Eb' & (R' & _)). assert (b' = b) as -> by congruence. destruct (U _ _ R') as (X & _). clear - X.
  assert (M : map receipt_cbor l' = map receipt_cbor l) by (unfold receipts_cbor in X; destruct l, l'; try discriminate; [reflexivity|]; congruence). clear X. revert l' M. induction l as [|x l IH]; intros [|y l'] M; try discriminate; [reflexivity|]. cbn [map] in M |- *.
  assert (M1 : receipt_cbor y = receipt_cbor x) by congruence. assert (M2 : map receipt_cbor l' = map receipt_cbor l) by congruence. f_equal; [symmetry; now apply receipt_cbor_inj|now apply IH].
Qed.

(** ** The buffer *)
Lemma insert_logs_ok n rs : forall i m, Forall (fun r => logs_fit (rc_logs r)) rs -> exists m', insert_logs n i rs m = Done m'
  /\ (forall j r, rs !! j = Some r -> match rc_logs r with [] => m' !! (n, i + N.of_nat j) = m !! (n, i + N.of_nat j) | l => exists v, m' !! (n, i + N.of_nat j) = Some v /\ stands_for v (logs_cbor l) end)
  /\ (forall p, (forall j, (j < length rs)%nat -> p <> (n, i + N.of_nat j)) -> m' !! p = m !! p).
Proof.
  induction rs as [|r rs IH]; intros i m F; [exists m; split; [reflexivity|]; split; [intros j r H; destruct j; discriminate|auto]|]. inversion F as [|x y Fr Fs]; subst. cbn [insert_logs].
  assert (Z : i + N.of_nat 0 = i) by lia. assert (Sc : forall j, i + N.of_nat (S j) = i + 1 + N.of_nat j) by (intros; lia).
  destruct (rc_logs r) as [|l0 ls] eqn:L.
  - destruct (IH (i + 1) m Fs) as (m' & E & A & B). exists m'. split; [exact E|]. split.
    + intros [|j] r' H; [assert (r = r') by (now apply (inj Some) in H); subst r'; rewrite L; apply B; intros j _; rewrite Z; intros X; apply pair_equal_spec in X as (_ & X); lia|]. rewrite Sc. now apply A.
    + intros p H. apply B. intros j Hj. rewrite <- Sc. apply H. cbn [length]. lia.
  - destruct (logs_ok (l0 :: ls) Fr) as (v & Ev & Rv). rewrite Ev. cbn [obind]. destruct (IH (i + 1) (<[(n, i) := v]> m) Fs) as (m' & E & A & B). exists m'. split; [exact E|]. split.
    + intros [|j] r' H.
      * assert (r = r') by (now apply (inj Some) in H). subst r'. rewrite L. exists v. split; [|exact Rv]. rewrite B; [rewrite Z; apply lookup_insert|]. intros j _. rewrite Z. intros X. apply pair_equal_spec in X as (_ & X). lia.
      * rewrite Sc. specialize (A j r' H). destruct (rc_logs r'); [|exact A]. rewrite A. apply lookup_insert_ne. intros X. apply pair_equal_spec in X as (_ & X). lia.
    + intros p H. rewrite B; [apply lookup_insert_ne; intros <-; apply (H 0%nat); [cbn [length]; lia|now rewrite Z]|]. intros j Hj. rewrite <- Sc. apply H. cbn [length]. lia.
Qed.
(** Numbers of blocks and transactions in range. *)
Definition numbers_fit (b : buffer) : Prop := (forall n v, b_receipts b !! n = Some v -> n < 2 ^ 64) /\ (forall p v, b_logs b !! p = Some v -> fst p < 2 ^ 64 /\ snd p < 2 ^ 32).
Lemma log_key_inj n i m j : n < 2 ^ 64 -> m < 2 ^ 64 -> i < 2 ^ 32 -> j < 2 ^ 32 -> log_key n i = log_key m j -> n = m /\ i = j.
Proof.
  intros Hn Hm Hi Hj E. unfold log_key in E. apply app_parts in E as (E1 & E2); [|now rewrite !be_fixed_length]. split; [now apply be8_inj|now apply be4_inj].
Qed.
Lemma inserted b n rs d : n < 2 ^ 64 -> receipts_fit rs -> Forall (fun r => logs_fit (rc_logs r)) rs -> numbers_fit b -> wf_db d -> exists b', insert_receipts b n rs = Done b'
  /\ (exists v, lookup (buf_write_to_db b' d kBlockReceipts) (block_key n) = Some v /\ stands_for v (receipts_cbor rs))
  /\ (forall j r, rs !! j = Some r -> rc_logs r <> [] -> exists v, lookup (buf_write_to_db b' d kLogs) (log_key n (N.of_nat j)) = Some v /\ stands_for v (logs_cbor (rc_logs r)))
  /\ (forall j, (forall r, rs !! j = Some r -> rc_logs r = []) -> N.of_nat j < 2 ^ 32 -> b_logs b !! (n, N.of_nat j) = None -> lookup (buf_write_to_db b' d kLogs) (log_key n (N.of_nat j)) = lookup (d kLogs) (log_key n (N.of_nat j)))
  /\ numbers_fit b'.
Proof.
  intros Hn Fr Fl (Nr & Nl) W. unfold insert_receipts. destruct (insert_logs_ok n rs 0 (b_logs b) Fl) as (m & Em & A & B). destruct (receipts_ok rs Fr) as (v & Ev & Rv). rewrite Em. cbn [obind]. rewrite Ev. cbn [obind]. eexists. split; [reflexivity|].
  set (b' := mkBuf _ _ _ _ _ _ _ _ _ _ _).
  assert (Small : N.of_nat (length rs) < 2 ^ 32) by (destruct Fr as (Fr & _); eapply N.lt_trans; [exact Fr|reflexivity]).
  assert (NL : forall p w, m !! p = Some w -> fst p < 2 ^ 64 /\ snd p < 2 ^ 32).
  { intros [x y] w H. destruct (decide (x = n /\ y < N.of_nat (length rs))) as [( -> & Y)|No]; [split; [exact Hn|cbn [snd]; lia]|]. apply (Nl _ w). rewrite <- B; [exact H|]. intros j Hj E. apply pair_equal_spec in E as ( -> & -> ). apply No. split; [reflexivity|lia]. }
  assert (NR : forall k w, <[n := v]> (b_receipts b) !! k = Some w -> k < 2 ^ 64).
  { intros k w H. destruct (N.eq_dec k n) as [ -> |Ne]; [exact Hn|]. rewrite lookup_insert_ne in H by congruence. now apply Nr in H. }
  assert (Ws : forall j, N.of_nat j < 2 ^ 32 -> lookup (buf_write_to_db b' d kLogs) (log_key n (N.of_nat j)) = match m !! (n, N.of_nat j) with Some w => Some w | None => lookup (d kLogs) (log_key n (N.of_nat j)) end).
  { intros j Hj. change (buf_write_to_db b' d kLogs) with (write_map (fun p => log_key p.1 p.2) (fun v => v) m (d kLogs)).
    destruct (write_map_spec (fun p => log_key p.1 p.2) (fun v : bytes => v) m (fun p => p.1 < 2 ^ 64 /\ p.2 < 2 ^ 32) (d kLogs)) as (_ & X & _).
    - intros [x i] [y k] (X1 & X2) (Y1 & Y2) E. cbn [fst snd] in *. apply log_key_inj in E as ( -> & -> ); auto.
    - intros p w H. now apply (NL p w).
    - now apply wf_single.
    - apply (X (n, N.of_nat j)). split; [exact Hn|exact Hj]. }
  split; [|split; [|split; [|split]]].
  - exists v. split; [|exact Rv]. change (buf_write_to_db b' d kBlockReceipts) with (write_map block_key (fun v => v) (<[n := v]> (b_receipts b)) (d kBlockReceipts)).
    destruct (write_map_spec block_key (fun v : bytes => v) (<[n := v]> (b_receipts b)) (fun k => k < 2 ^ 64) (d kBlockReceipts)) as (_ & X & _); [intros x y; apply be8_inj|exact NR|now apply wf_single|]. rewrite (X n Hn). rewrite lookup_insert. reflexivity.
  - intros j r H L. assert (Hj : N.of_nat j < 2 ^ 32) by (apply lookup_lt_Some in H; lia). rewrite (Ws j Hj). specialize (A j r H). rewrite !N.add_0_l in A. destruct (rc_logs r) as [|l0 ls]; [now destruct L|]. destruct A as (w & -> & Rw). exists w. auto.
  - intros j L Hj Nn. rewrite (Ws j Hj). assert (X : m !! (n, N.of_nat j) = None); [|now rewrite X]. destruct (rs !! j) as [r|] eqn:H.
    + specialize (A j r H). rewrite (L r eq_refl) in A. rewrite !N.add_0_l in A. now rewrite A.
    + rewrite B; [exact Nn|]. intros k Hk E. apply pair_equal_spec in E as (_ & E). apply lookup_ge_None in H. lia.
  - exact NR.
  - intros p w H. now apply (NL p w).
Qed.

(** ** What a listener for byte strings gets *)
Lemma strings_logs l : strings (logs_cbor l) = concat (map (fun x => log_address x :: log_topics x ++ [log_data x]) l).
Proof.
  unfold logs_cbor. cbn [strings]. rewrite map_map. f_equal. apply map_ext. intros x. cbn [log_cbor strings map concat]. rewrite map_map. cbn [strings]. cbn [app]. f_equal. f_equal. generalize (log_topics x). intros t. induction t as [|y t IH]; [reflexivity|]. cbn [map concat app]. now rewrite IH.
Qed.
Lemma reported l s : In s (strings (logs_cbor l)) <-> exists x, In x l /\ (s = log_address x \/ In s (log_topics x) \/ s = log_data x).
Proof.
  rewrite strings_logs. rewrite in_concat. split.
  - intros (y & I & J). apply in_map_iff in I as (x & <- & I). exists x. split; [exact I|]. destruct J as [E|J]; [left; congruence|]. apply in_app_iff in J as [J|[E|[]]]; [auto|right; right; congruence].
  - intros (x & I & H). exists (log_address x :: log_topics x ++ [log_data x]). split; [now apply (in_map (fun x => log_address x :: log_topics x ++ [log_data x]))|]. destruct H as [ -> |[H| -> ]]; [now left|right; apply in_app_iff; auto|right; apply in_app_iff; right; now left].
Qed.

Definition case_log : log := mkLog (be_fixed 20 0xABC) [be_fixed 32 1; be_fixed 32 2] (be_fixed 300 5).
Definition case_receipts : list receipt := [mkReceipt kLegacy true 21000 [] []; mkReceipt kEip1559 false (2 ^ 40) [] [case_log; case_log]].
Lemma case_fits : receipts_fit case_receipts /\ Forall (fun r => logs_fit (rc_logs r)) case_receipts /\ numbers_fit buf_empty /\ wf_db sample_db.
Proof.
  assert (L : log_fits case_log).
  { unfold log_fits, blen. cbn [case_log log_address log_topics log_data]. rewrite !be_fixed_length. split; [reflexivity|]. split; [reflexivity|]. split; [|reflexivity]. repeat constructor; unfold blen; rewrite be_fixed_length; reflexivity. }
  split; [split; [reflexivity|repeat constructor]|]. split; [|split; [split; intros; discriminate|]].
  - unfold case_receipts. constructor; [split; [reflexivity|constructor]|]. constructor; [split; [reflexivity|]; cbn [rc_logs]; auto|constructor].
  - apply sample_db_wf.
Qed.
Lemma case_receipts_bytes : cbor_encode_receipts case_receipts = Done [0x82; 0x84; 0; 0xf6; 1; 0x19; 0x52; 0x08; 0x84; 2; 0xf6; 0; 0x1b; 0; 0; 1; 0; 0; 0; 0; 0].
Proof. reflexivity. Qed.

(** ** The listener of the log index *)
From Verif Require Import IndexModel IndexSpec IndexProofs.
Lemma listened n l : forall topics ts addrs as_, exists ts' as', exists topics' addrs', fold_left (on_bytes n) l ((topics, ts), (addrs, as_)) = ((topics', ts'), (addrs', as'))
  /\ (forall k m, in_maps topics' k m <-> in_maps topics k m \/ (In k l /\ length k = 32%nat /\ m = n mod 2 ^ 32))
  /\ (forall k m, in_maps addrs' k m <-> in_maps addrs k m \/ (In k l /\ length k = 20%nat /\ m = n mod 2 ^ 32)).
Proof.
  induction l as [|s l IH]; intros topics ts addrs as_; [exists ts, as_, topics, addrs; split; [reflexivity|]; split; intros k m; (split; [now left|]); intros [H|([] & _)]; exact H|]. cbn [fold_left on_bytes].
  destruct (Nat.eqb_spec (length s) 32) as [L|L]; [|destruct (Nat.eqb_spec (length s) 20) as [L2|L2]].
  - destruct (IH (bm_add topics s (n mod 2 ^ 32)) (ts + 32) addrs as_) as (t1 & a1 & T & A & E & H1 & H2). exists t1, a1, T, A. split; [exact E|]. split; intros k m; [rewrite H1, bm_add_in|rewrite H2]; cbn [In].
    + split; [intros [[H|( -> & -> )]|H]; [auto|right; auto|right; tauto]|]. intros [H|([ <- |H] & H3 & -> )]; auto 6.
    + split; [intros [H|H]; [auto|right; tauto]|]. intros [H|([ <- |H] & H3 & -> )]; auto 6. exfalso. lia.
  - destruct (IH topics ts (bm_add addrs s (n mod 2 ^ 32)) (as_ + 20)) as (t1 & a1 & T & A & E & H1 & H2). exists t1, a1, T, A. split; [exact E|]. split; intros k m; [rewrite H1|rewrite H2, bm_add_in]; cbn [In].
    + split; [intros [H|H]; [auto|right; tauto]|]. intros [H|([ <- |H] & H3 & -> )]; auto 6. exfalso. lia.
    + split; [intros [[H|( -> & -> )]|H]; [auto|right; auto|right; tauto]|]. intros [H|([ <- |H] & H3 & -> )]; auto 6.
  - destruct (IH topics ts addrs as_) as (t1 & a1 & T & A & E & H1 & H2). exists t1, a1, T, A. split; [exact E|]. split; intros k m; [rewrite H1|rewrite H2]; cbn [In]; (split; [intros [H|H]; [auto|right; tauto]|]); intros [H|([ <- |H] & H3 & -> )]; auto 6; exfalso; lia.
Qed.
Lemma nothing_in k m : ~ in_maps [] k m.
Proof. unfold in_maps. intros (b & [] & _). Qed.
Lemma log_listener n l : exists topics ts addrs as_, fold_left (on_bytes n) (strings (logs_cbor l)) (([], 0), ([], 0)) = ((topics, ts), (addrs, as_))
  /\ (forall k m, in_maps topics k m <-> m = n mod 2 ^ 32 /\ length k = 32%nat /\ exists x, In x l /\ (k = log_address x \/ In k (log_topics x) \/ k = log_data x))
  /\ (forall k m, in_maps addrs k m <-> m = n mod 2 ^ 32 /\ length k = 20%nat /\ exists x, In x l /\ (k = log_address x \/ In k (log_topics x) \/ k = log_data x)).
Proof.
  destruct (listened n (strings (logs_cbor l)) [] 0 [] 0) as (ts & as_ & topics & addrs & E & H1 & H2). exists topics, ts, addrs, as_. split; [exact E|]. pose proof (nothing_in) as Z. split; intros k m; [rewrite H1|rewrite H2]; rewrite reported; split; [intros [H|H]; [now apply Z in H|tauto]|tauto|intros [H|H]; [now apply Z in H|tauto]|tauto].
Qed.
Lemma data_indexed n l x : In x l -> length (log_data x) = 20%nat -> (forall y, In y l -> log_data x <> log_address y) ->
  exists topics ts addrs as_, fold_left (on_bytes n) (strings (logs_cbor l)) (([], 0), ([], 0)) = ((topics, ts), (addrs, as_)) /\ in_maps addrs (log_data x) (n mod 2 ^ 32).
Proof.
  intros I L _. destruct (log_listener n l) as (topics & ts & addrs & as_ & E & _ & H). exists topics, ts, addrs, as_. split; [exact E|]. apply H. split; [reflexivity|]. split; [exact L|]. exists x. auto.
Qed.
Definition tricky : log := mkLog (be_fixed 20 0xABC) [be_fixed 32 1] (be_fixed 20 0xDEF).
Lemma tricky_case : In tricky [tricky] /\ length (log_data tricky) = 20%nat /\ forall y, In y [tricky] -> log_data tricky <> log_address y.
Proof. split; [now left|]. split; [reflexivity|]. intros y [ <- |[]]. discriminate. Qed.
