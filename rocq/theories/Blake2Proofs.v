From Verif Require Import Base BaseFacts KeccakModel Sha256Spec Sha256Model Sha256Proofs RipemdSpec Blake2Model Blake2Spec.

Definition w64 (x : N) : Prop := x < 2 ^ 64.
Lemma lxor_small n a b : a < 2 ^ n -> b < 2 ^ n -> N.lxor a b < 2 ^ n.
Proof.
  intros A B. destruct (N.eq_dec (N.lxor a b) 0) as [->|NZ]; [apply N.neq_0_lt_0, N.pow_nonzero; discriminate|].
  apply N.log2_lt_pow2; [apply N.neq_0_lt_0; exact NZ|]. eapply N.le_lt_trans; [apply N.log2_lxor|].
  assert (Z : 0 < n \/ n = 0) by (clear; lia). destruct Z as [Z|Z]; [|subst n; change (2 ^ 0) with 1 in *; assert (a = 0) by (clear - A; lia); assert (b = 0) by (clear - B; lia); subst; exfalso; apply NZ; reflexivity].
  assert (S : forall x, x < 2 ^ n -> N.log2 x < n).
  { intros x X. destruct (N.eq_dec x 0) as [->|Nx]; [exact Z|]. apply N.neq_0_lt_0 in Nx. exact (proj1 (N.log2_lt_pow2 _ _ Nx) X). }
  apply N.max_lub_lt; apply S; assumption.
Qed.
Lemma rotr64_ok v c : w64 v -> 0 < c -> c < 64 -> rotr64 v c = rotr c v.
Proof.
  unfold w64. intros V C1 C2. unfold rotr64, rotr. rewrite N.shiftr_div_pow2, N.shiftl_mul_pow2.
  assert (E : 2 ^ 64 = 2 ^ c * 2 ^ (64 - c)) by (rewrite <- N.pow_add_r; f_equal; lia).
  assert (P1 : 2 ^ c <> 0) by (apply N.pow_nonzero; discriminate).
  assert (P2 : 2 ^ (64 - c) <> 0) by (apply N.pow_nonzero; discriminate).
  rewrite E. rewrite N.mul_mod_distr_r by assumption. rewrite N.lor_comm, lor_add; [apply N.add_comm|].
  apply N.div_lt_upper_bound; [exact P1|]. rewrite <- E. exact V.
Qed.
Lemma rotr_w v c : w64 v -> c < 64 -> w64 (rotr c v).
Proof.
  unfold w64, rotr. intros V C2.
  assert (E : 2 ^ 64 = 2 ^ c * 2 ^ (64 - c)) by (rewrite <- N.pow_add_r; f_equal; lia).
  assert (P1 : 2 ^ c <> 0) by (apply N.pow_nonzero; discriminate).
  assert (P2 : 2 ^ (64 - c) <> 0) by (apply N.pow_nonzero; discriminate).
  assert (A : v / 2 ^ c < 2 ^ (64 - c)) by (apply N.div_lt_upper_bound; [exact P1|]; rewrite <- E; exact V).
  assert (B : v mod 2 ^ c < 2 ^ c) by (apply N.mod_lt, P1).
  rewrite E. generalize dependent (2 ^ c). generalize dependent (2 ^ (64 - c)). clear. intros q Q p _ _ A B. generalize dependent (v / p). generalize dependent (v mod p). clear v.
  intros x X y Y. nia.
Qed.
Lemma plus64_w a b : w64 (plus64 a b).
Proof. apply N.mod_lt. discriminate. Qed.

Ltac ws := repeat first [assumption | apply plus64_w | apply rotr_w; [|reflexivity] | apply lxor_small].
Lemma mix_w a b c d x y : w64 a -> w64 b -> w64 c -> w64 d ->
  let '(a', b', c', d') := mix a b c d x y in w64 a' /\ w64 b' /\ w64 c' /\ w64 d'.
Proof. intros A B C D. unfold mix. split; [|split; [|split]]; ws. Qed.

(** ** The vector as an array. *)
Definition arr (v : vec) : list N := map v (seq 0 16).
Definition vec_w (v : vec) : Prop := forall i, (i < 16)%nat -> w64 (v i).
Lemma arr_at v i : (i < 16)%nat -> at_ (arr v) i = Some (v i).
Proof. intros L. unfold at_, arr. do 16 (destruct i as [|i]; [reflexivity|]). lia. Qed.
Lemma upd_map {X} (g : nat -> X) x : forall n s a, upd a x (map g (seq s n)) = map (fun i => if Nat.eqb i (s + a) then x else g i) (seq s n).
Proof.
  induction n as [|n IH]; intros s a; [destruct a; reflexivity|]. cbn [seq map]. destruct a as [|a]; cbn [upd].
  - rewrite Nat.add_0_r, Nat.eqb_refl. f_equal. apply map_ext_in. intros i I. apply in_seq in I. destruct (Nat.eqb_spec i s); [lia|reflexivity].
  - destruct (Nat.eqb_spec s (s + S a)); [lia|]. f_equal. rewrite IH. apply map_ext. intros i. replace (S s + a)%nat with (s + S a)%nat by lia. reflexivity.
Qed.
Lemma upd_arr a x v : upd a x (arr v) = arr (fun i => if Nat.eqb i a then x else v i).
Proof. apply (upd_map v x 16 0 a). Qed.

Lemma sigma_row r : (r < 10)%nat -> nth_error blake2b_sigma r = Some (nth r SIGMA []).
Proof. intros L. do 10 (destruct r as [|r]; [reflexivity|]). lia. Qed.
Lemma row_shape r : (r < 10)%nat -> length (nth r SIGMA []) = 16%nat /\ Forall (fun x => (x < 16)%nat) (nth r SIGMA []).
Proof. intros L. do 10 (destruct r as [|r]; [split; [reflexivity|repeat (constructor; [lia|]); constructor]|]). lia. Qed.
Lemma row_at r j : (r < 10)%nat -> (j < 16)%nat -> nth_error (nth r SIGMA []) j = Some (nth j (nth r SIGMA []) 0%nat) /\ (nth j (nth r SIGMA []) 0 < 16)%nat.
Proof.
  intros R J. destruct (row_shape r R) as [L Fa]. split; [apply nth_error_nth'; lia|]. rewrite Forall_forall in Fa. apply Fa, nth_In. lia.
Qed.
Lemma words_at (m : list N) i : length m = 16%nat -> (i < 16)%nat -> at_ m i = Some (nth i m 0).
Proof. intros L I1. apply nth_error_nth'. lia. Qed.

Lemma G_ok m r i a b c d v : length m = 16%nat -> (r < 10)%nat -> (i < 8)%nat ->
  (a < 16)%nat -> (b < 16)%nat -> (c < 16)%nat -> (d < 16)%nat -> NoDup [a; b; c; d] -> vec_w v ->
  let s := fun j => nth (nth j (nth r SIGMA []) 0%nat) m 0 in
  G m r i a b c d (arr v) = Some (arr (mixed v a b c d (s (2 * i)%nat) (s (2 * i + 1)%nat))) /\ vec_w (mixed v a b c d (s (2 * i)%nat) (s (2 * i + 1)%nat)).
Proof.
  intros Lm R I1 La Lb Lc Ld ND Wv s. unfold G. rewrite sigma_row by exact R.
  destruct (row_at r (2 * i + 0) R ltac:(lia)) as [-> J0]. destruct (row_at r (2 * i + 1) R ltac:(lia)) as [-> J1].
  rewrite !words_at by assumption. rewrite !arr_at by assumption. replace (2 * i + 0)%nat with (2 * i)%nat by lia.
  fold (s (2 * i)%nat) (s (2 * i + 1)%nat). generalize (s (2 * i)%nat) (s (2 * i + 1)%nat). intros x y. clear s J0 J1 m Lm.
  pose proof (Wv a La) as Wa. pose proof (Wv b Lb) as Wb. pose proof (Wv c Lc) as Wc. pose proof (Wv d Ld) as Wd.
  assert (Ro : forall u k, w64 u -> 0 < k -> k < 64 -> rotr64 u k = rotr k u) by exact rotr64_ok.
  change add64 with plus64.
  pose proof (mix_w (v a) (v b) (v c) (v d) x y Wa Wb Wc Wd) as Mw. unfold mixed, mix. unfold mix in Mw.
  cbv zeta.
  rewrite (Ro (N.lxor (v d) (plus64 (plus64 (v a) (v b)) x)) 32) by (try reflexivity; ws).
  rewrite (Ro (N.lxor (v b) _) 24) by (try reflexivity; ws).
  rewrite (Ro (N.lxor (rotr 32 _) _) 16) by (try reflexivity; ws).
  rewrite (Ro (N.lxor (rotr 24 _) _) 63) by (try reflexivity; ws).
  cbv zeta in Mw. revert Mw.
  generalize (plus64 (plus64 (plus64 (plus64 (v a) (v b)) x)
                (rotr 24 (N.lxor (v b) (plus64 (v c) (rotr 32 (N.lxor (v d) (plus64 (plus64 (v a) (v b)) x))))))) y).
  intros a'. generalize (rotr 16 (N.lxor (rotr 32 (N.lxor (v d) (plus64 (plus64 (v a) (v b)) x))) a')). intros d'.
  generalize (plus64 (plus64 (v c) (rotr 32 (N.lxor (v d) (plus64 (plus64 (v a) (v b)) x)))) d'). intros c'.
  match goal with |- context [rotr 63 ?t] => generalize (rotr 63 t) end. intros b' (A' & B' & C' & D').
  assert (Dab : a <> b /\ a <> c /\ a <> d /\ b <> c /\ b <> d /\ c <> d).
  { inversion ND as [|? ? Na ND1]; subst. inversion ND1 as [|? ? Nb ND2]; subst. inversion ND2 as [|? ? Nc ND3]; subst. cbn [In] in Na, Nb, Nc.
    repeat split; intros ->; tauto. }
  split.
  - f_equal. rewrite !upd_arr. apply map_ext. intros j. destruct Dab as (D1 & D2 & D3 & D4 & D5 & D6).
    destruct (Nat.eqb_spec j a), (Nat.eqb_spec j b), (Nat.eqb_spec j c), (Nat.eqb_spec j d); try congruence; reflexivity.
  - intros j J. cbv beta. destruct (Nat.eqb j a), (Nat.eqb j b), (Nat.eqb j c), (Nat.eqb j d); try assumption; apply Wv, J.
Qed.

Lemma round_ok m i v : length m = 16%nat -> vec_w v -> ROUND m (i mod 10) (arr v) = Some (arr (blake_round m v i)) /\ vec_w (blake_round m v i).
Proof.
  intros Lm Wv. pose proof (Nat.mod_upper_bound i 10 ltac:(discriminate)) as R. unfold ROUND, blake_round.
  set (r := (i mod 10)%nat) in *. set (s := fun j => nth (nth j (nth r SIGMA []) 0%nat) m 0).
  assert (St : forall q a b c d u, (q < 8)%nat -> (a < 16)%nat -> (b < 16)%nat -> (c < 16)%nat -> (d < 16)%nat -> NoDup [a; b; c; d] -> vec_w u ->
    G m r q a b c d (arr u) = Some (arr (mixed u a b c d (s (2 * q)%nat) (s (2 * q + 1)%nat))) /\ vec_w (mixed u a b c d (s (2 * q)%nat) (s (2 * q + 1)%nat))).
  { intros. apply G_ok; assumption. }
  change (fold_left (diagonal s) (seq 0 4) (fold_left (column s) (seq 0 4) v)) with
    (diagonal s (diagonal s (diagonal s (diagonal s (column s (column s (column s (column s v 0) 1) 2) 3) 0) 1) 2) 3).
  assert (ND : forall a b c d, (a < b)%nat -> (b < c)%nat -> (c < d)%nat -> NoDup [a; b; c; d]).
  { intros a b c d L1 L2 L3. repeat constructor; cbn [In]; lia. }
  destruct (St 0 0 4 8 12 v ltac:(lia) ltac:(lia) ltac:(lia) ltac:(lia) ltac:(lia) ltac:(apply ND; lia) Wv)%nat as [-> W1].
  change (mixed v 0 4 8 12 (s (2 * 0)%nat) (s (2 * 0 + 1)%nat)) with (column s v 0) in *. set (v1 := column s v 0) in *. clearbody v1.
  destruct (St 1 1 5 9 13 v1 ltac:(lia) ltac:(lia) ltac:(lia) ltac:(lia) ltac:(lia) ltac:(apply ND; lia) W1)%nat as [-> W2].
  change (mixed v1 1 5 9 13 (s (2 * 1)%nat) (s (2 * 1 + 1)%nat)) with (column s v1 1) in *. set (v2 := column s v1 1) in *. clearbody v2.
  destruct (St 2 2 6 10 14 v2 ltac:(lia) ltac:(lia) ltac:(lia) ltac:(lia) ltac:(lia) ltac:(apply ND; lia) W2)%nat as [-> W3].
  change (mixed v2 2 6 10 14 (s (2 * 2)%nat) (s (2 * 2 + 1)%nat)) with (column s v2 2) in *. set (v3 := column s v2 2) in *. clearbody v3.
  destruct (St 3 3 7 11 15 v3 ltac:(lia) ltac:(lia) ltac:(lia) ltac:(lia) ltac:(lia) ltac:(apply ND; lia) W3)%nat as [-> W4].
  change (mixed v3 3 7 11 15 (s (2 * 3)%nat) (s (2 * 3 + 1)%nat)) with (column s v3 3) in *. set (v4 := column s v3 3) in *. clearbody v4.
  destruct (St 4 0 5 10 15 v4 ltac:(lia) ltac:(lia) ltac:(lia) ltac:(lia) ltac:(lia) ltac:(apply ND; lia) W4)%nat as [-> W5].
  change (mixed v4 0 5 10 15 (s (2 * 4)%nat) (s (2 * 4 + 1)%nat)) with (diagonal s v4 0) in *. set (v5 := diagonal s v4 0) in *. clearbody v5.
  destruct (St 5 1 6 11 12 v5 ltac:(lia) ltac:(lia) ltac:(lia) ltac:(lia) ltac:(lia) ltac:(apply ND; lia) W5)%nat as [-> W6].
  change (mixed v5 1 6 11 12 (s (2 * 5)%nat) (s (2 * 5 + 1)%nat)) with (diagonal s v5 1) in *. set (v6 := diagonal s v5 1) in *. clearbody v6.
  destruct (St 6 2 7 8 13 v6 ltac:(lia) ltac:(lia) ltac:(lia) ltac:(lia) ltac:(lia) ltac:(apply ND; lia) W6)%nat as [-> W7].
  change (mixed v6 2 7 8 13 (s (2 * 6)%nat) (s (2 * 6 + 1)%nat)) with (diagonal s v6 2) in *. set (v7 := diagonal s v6 2) in *. clearbody v7.
  destruct (St 7 3 4 9 14 v7 ltac:(lia) ltac:(lia) ltac:(lia) ltac:(lia) ltac:(lia) ltac:(apply ND; lia) W7)%nat as [-> W8].
  split; [reflexivity|exact W8].
Qed.

Lemma rounds_ok m : length m = 16%nat -> forall count i v, vec_w v ->
  rounds_loop m count i (arr v) = Some (arr (fold_left (blake_round m) (seq i count) v)) /\ vec_w (fold_left (blake_round m) (seq i count) v).
Proof.
  intros Lm. induction count as [|c IH]; intros i v Wv; cbn [rounds_loop]; [split; [reflexivity|exact Wv]|].
  destruct (round_ok m i v Lm Wv) as [-> W1]. change (seq i (S c)) with (i :: seq (S i) c). cbn [fold_left]. apply IH, W1.
Qed.

Lemma fold_ok v h : length h = 8%nat -> fold_h 8 0 (arr v) h = Some (map (fun i => N.lxor (N.lxor (nth i h 0) (v i)) (v (8 + i)%nat)) (seq 0 8)).
Proof.
  intros L. destruct h as [|h0 [|h1 [|h2 [|h3 [|h4 [|h5 [|h6 [|h7 [|]]]]]]]]]; try discriminate L. reflexivity.
Qed.

(** ** Words and bytes. *)
Lemma le_eight b : length b = 8%nat -> le_to_N b = be_to_N (rev b).
Proof.
  intros L. destruct b as [|b0 [|b1 [|b2 [|b3 [|b4 [|b5 [|b6 [|b7 [|]]]]]]]]]; try discriminate L. unfold be_to_N. cbn [le_to_N rev app fold_left]. lia.
Qed.
Lemma load64_ok b : (8 <= length b)%nat -> load64 b = Some (be_to_N (rev (firstn 8 b))).
Proof.
  intros L. destruct b as [|b0 [|b1 [|b2 [|b3 [|b4 [|b5 [|b6 [|b7 r]]]]]]]]; cbn [length] in L; try lia. cbn [load64 firstn].
  f_equal. apply le_eight. reflexivity.
Qed.
Lemma skip_skip {X} : forall a b (l : list X), skipn a (skipn b l) = skipn (b + a) l.
Proof. intros a b. revert a. induction b as [|b IH]; intros a l; [reflexivity|]. destruct l as [|x l]; [rewrite !skipn_nil; reflexivity|]. cbn. apply IH. Qed.
Lemma load_many_ok : forall count b, (8 * count <= length b)%nat -> load_many count b = Some (le_words64 count b).
Proof.
  assert (G : forall count s b, (8 * (s + count) <= length b)%nat -> load_many count (skipn (8 * s) b) = Some (map (le_word64 b) (seq s count))).
  { induction count as [|c IH]; intros s b L; [reflexivity|]. cbn [load_many seq map]. rewrite load64_ok by (rewrite skipn_length; lia).
    rewrite skip_skip. replace (8 * s + 8)%nat with (8 * S s)%nat by lia. rewrite IH by lia. reflexivity. }
  intros count b L. exact (G count 0%nat b L).
Qed.
Lemma store64_ok : forall n w, store64 n w = le_fixed n w.
Proof.
  induction n as [|n IH]; intros w; [reflexivity|]. cbn [store64]. unfold le_fixed in *. cbn [be_fixed]. rewrite rev_app_distr. cbn [rev app]. f_equal.
  rewrite IH, N.shiftr_div_pow2. reflexivity.
Qed.
Lemma le_word_w b i : wf_bytes b -> w64 (le_word64 b i).
Proof.
  intros W. unfold le_word64. set (c := rev (firstn 8 (skipn (8 * i) b))).
  assert (Wc : wf_bytes c) by (apply Forall_rev, wf_firstn, wf_skipn, W).
  pose proof (be_to_N_bound c Wc) as B. eapply N.lt_le_trans; [exact B|]. change (2 ^ 64) with (256 ^ 8). apply N.pow_le_mono_r; [discriminate|].
  unfold c, blen. rewrite rev_length, firstn_length. lia.
Qed.

Lemma iv_ok : blake2b_IV = map IV (seq 0 8).
Proof. vm_compute. reflexivity. Qed.
Lemma iv_w : forall i, (i < 8)%nat -> w64 (IV i).
Proof. intros i L. unfold IV. apply N.mod_lt. discriminate. Qed.

Lemma be_split a b : be_to_N (a ++ b) = be_to_N a * 256 ^ blen b + be_to_N b.
Proof. unfold be_to_N at 1. rewrite fold_left_app. apply be_to_N_app_acc. Qed.
Lemma counter b : wf_bytes b -> (16 <= length b)%nat ->
  be_to_N (rev (firstn 16 b)) mod 2 ^ 64 = le_word64 b 0 /\ be_to_N (rev (firstn 16 b)) / 2 ^ 64 = le_word64 b 1.
Proof.
  intros W L. assert (E : firstn 16 b = firstn 8 b ++ firstn 8 (skipn 8 b)).
  { do 16 (destruct b as [|? b]; [cbn [length] in L; lia|]). reflexivity. }
  rewrite E, rev_app_distr, be_split. unfold le_word64. change (8 * 0)%nat with 0%nat. rewrite skipn_O. change (8 * 1)%nat with 8%nat.
  assert (B : be_to_N (rev (firstn 8 b)) < 2 ^ 64) by (exact (le_word_w b 0 W)).
  replace (blen (rev (firstn 8 b))) with 8 by (unfold blen; rewrite rev_length, firstn_length; replace (Nat.min 8 (length b)) with 8%nat by lia; reflexivity).
  change (256 ^ 8) with (2 ^ 64). generalize dependent (be_to_N (rev (firstn 8 b))). generalize (be_to_N (rev (firstn 8 (skipn 8 b)))). clear. intros y x B.
  change (2 ^ 64) with 18446744073709551616 in *. lia.
Qed.

Lemma compl64 x : x < 2 ^ 64 -> N.lxor x (2 ^ 64 - 1) = 2 ^ 64 - 1 - x.
Proof.
  intros L. change (2 ^ 64 - 1) with (N.ones 64). assert (E : N.lxor x (N.ones 64) + x = N.ones 64).
  { rewrite N.add_nocarry_lxor; [rewrite N.lxor_comm, <- N.lxor_assoc, N.lxor_nilpotent; apply N.lxor_0_l|].
    apply N.bits_inj_iff. intros i. rewrite N.land_spec, N.lxor_spec, N.bits_0. destruct (N.testbit x i) eqn:T; [|apply andb_false_r].
    rewrite N.ones_spec_low; [reflexivity|]. destruct (N.lt_ge_cases i 64) as [|I1]; [assumption|]. exfalso.
    assert (Nx : x <> 0) by (intros ->; rewrite N.bits_0 in T; discriminate). apply N.neq_0_lt_0 in Nx.
    rewrite N.bits_above_log2 in T; [discriminate|]. eapply N.lt_le_trans; [exact (proj1 (N.log2_lt_pow2 _ _ Nx) L)|exact I1]. }
  rewrite <- E at 2. symmetry. apply N.add_sub.
Qed.

Lemma blake2_ok input : wf_bytes input -> blake2_f_run input = Some (blake2_F input).
Proof.
  intros W. unfold blake2_f_run, blake2_F. destruct (Nat.eqb_spec (length input) 213) as [L|]; [|reflexivity]. cbn [negb].
  assert (Ef : nth_error input 212 = Some (nth 212 input 0)) by (apply nth_error_nth'; rewrite L; repeat constructor). rewrite Ef. clear Ef.
  set (f := nth 212 input 0). clearbody f.
  destruct (N.ltb_spec f 2) as [Lf|Lf].
  2: { destruct (N.eqb_spec f 0); [lia|]. destruct (N.eqb_spec f 1); [lia|]. reflexivity. }
  assert (Ef : negb (f =? 0) && negb (f =? 1) = false) by (destruct (N.eqb_spec f 0); [reflexivity|]; destruct (N.eqb_spec f 1); [reflexivity|lia]).
  rewrite Ef.
  rewrite (load_many_ok 8) by (rewrite skipn_length, L; apply Nat.leb_le; reflexivity).
  rewrite (load_many_ok 2) by (rewrite skipn_length, L; apply Nat.leb_le; reflexivity).
  set (r := be_to_N (firstn 4 input)). clearbody r.
  set (hb := skipn 4 input). set (mb := skipn 68 input). set (tb := skipn 196 input).
  assert (Wh : wf_bytes hb) by apply wf_skipn, W. assert (Wt : wf_bytes tb) by apply wf_skipn, W.
  assert (Lm : (128 <= length mb)%nat) by (unfold mb; rewrite skipn_length, L; apply Nat.leb_le; reflexivity).
  assert (Lt : (16 <= length tb)%nat) by (unfold tb; rewrite skipn_length, L; apply Nat.leb_le; reflexivity).
  clearbody hb mb tb. unfold blake2b_compress. cbn [bh bt bf].
  rewrite (load_many_ok 16) by (rewrite firstn_length; lia).
  assert (Em : le_words64 16 (firstn 128 mb) = le_words64 16 mb).
  { apply map_ext_in. intros i I1. apply in_seq in I1. unfold le_word64. do 2 f_equal. rewrite skipn_firstn_comm, firstn_firstn. f_equal. lia. }
  rewrite Em. set (m := le_words64 16 mb). assert (Lm16 : length m = 16%nat) by reflexivity. clearbody m. clear Em.
  destruct (counter tb Wt Lt) as [T0 T1]. set (t := be_to_N (rev (firstn 16 tb))) in *.
  change (le_words64 2 tb) with [le_word64 tb 0; le_word64 tb 1]. rewrite <- T0, <- T1.
  assert (W0 : w64 (t mod 2 ^ 64)) by (apply N.mod_lt; discriminate). assert (W1 : w64 (t / 2 ^ 64)) by (rewrite T1; apply le_word_w, Wt).
  clearbody t. clear T0 T1.
  set (h := le_words64 8 hb). assert (Lh : length h = 8%nat) by reflexivity.
  assert (Ww : forall i, (i < 8)%nat -> w64 (nth i h 0)).
  { intros i I1. unfold h, le_words64. rewrite (nth_indep _ 0 (le_word64 hb 0)) by (rewrite map_length, seq_length; exact I1).
    rewrite map_nth. apply le_word_w, Wh. }
  clearbody h. rewrite iv_ok. cbn [seq map].
  assert (Ei : exists h0 h1 h2 h3 h4 h5 h6 h7, h = [h0; h1; h2; h3; h4; h5; h6; h7]).
  { destruct h as [|h0 [|h1 [|h2 [|h3 [|h4 [|h5 [|h6 [|h7 [|]]]]]]]]]; try discriminate Lh. do 8 eexists. reflexivity. }
  destruct Ei as (h0 & h1 & h2 & h3 & h4 & h5 & h6 & h7 & Eh).
  assert (Fv : forall i, (i < 16)%nat -> w64 (initial_vec h t (f =? 1) i)).
  { intros i I1. unfold initial_vec. destruct (Nat.ltb_spec i 8); [apply Ww; assumption|].
    destruct (Nat.eqb i 12); [apply lxor_small; [apply iv_w; lia|exact W0]|]. destruct (Nat.eqb i 13); [apply lxor_small; [apply iv_w; lia|exact W1]|].
    destruct (Nat.eqb i 14); [|apply iv_w; lia]. destruct (f =? 1); [|apply iv_w; lia]. eapply N.le_lt_trans; [apply N.le_sub_l|reflexivity]. }
  assert (Ev : [h0; h1; h2; h3; h4; h5; h6; h7; IV 0; IV 1; IV 2; IV 3; N.lxor (IV 4) (t mod 2 ^ 64); N.lxor (IV 5) (t / 2 ^ 64);
      N.lxor (IV 6) (if f =? 0 then 0 else 2 ^ 64 - 1); N.lxor (IV 7) 0] = arr (initial_vec h t (f =? 1))).
  { rewrite Eh. pose proof (iv_w 6 ltac:(apply Nat.ltb_lt; reflexivity)) as W6. unfold arr, initial_vec.
    assert (E6 : N.lxor (IV 6) (if f =? 0 then 0 else 2 ^ 64 - 1) = if f =? 1 then 2 ^ 64 - 1 - IV 6 else IV 6).
    { destruct (N.eqb_spec f 0) as [F0|F0], (N.eqb_spec f 1) as [F1|F1]; try lia; [apply N.lxor_0_r|apply compl64; exact W6]. }
    rewrite E6, N.lxor_0_r. generalize IV.
    intros. reflexivity. }
  rewrite Eh at 1. cbv iota.
  assert (Ef2 : (if f =? 0 then [0; 0] else [2 ^ 64 - 1; 0]) = [(if f =? 0 then 0 else 2 ^ 64 - 1); 0]) by (destruct (f =? 0); reflexivity).
  rewrite Ef2. cbv iota. rewrite Ev. destruct (rounds_ok m Lm16 (N.to_nat r) 0 (initial_vec h t (f =? 1)) Fv) as [-> _].
  rewrite fold_ok by exact Lh. cbn [bh]. do 3 f_equal. apply map_ext. intros w. apply store64_ok.
Qed.
