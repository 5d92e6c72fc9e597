From Verif Require Import Base BaseFacts Sha256Model Sha256Spec.

Definition w32 (x : N) : Prop := x < 2 ^ 32.

(** ** Words. *)
Lemma lor_add a b n : a < 2 ^ n -> N.lor (b * 2 ^ n) a = b * 2 ^ n + a.
Proof.
  intros L. assert (D : N.land (b * 2 ^ n) a = 0).
  { apply N.bits_inj_iff. intros i. rewrite N.land_spec, N.bits_0. destruct (N.lt_ge_cases i n) as [I|I].
    - rewrite N.mul_pow2_bits_low by exact I. reflexivity.
    - destruct (N.eq_dec a 0) as [->|NZ]; [rewrite N.bits_0; apply andb_false_r|].
      rewrite (N.bits_above_log2 a); [apply andb_false_r|]. apply N.lt_le_trans with n; [|exact I]. apply N.log2_lt_pow2; lia. }
  rewrite <- N.lxor_lor by exact D. symmetry. apply N.add_nocarry_lxor, D.
Qed.

Lemma right_rot_ok v c : w32 v -> 0 < c -> c < 32 -> right_rot v c = ROTR c v.
Proof.
  unfold w32. intros V C1 C2. unfold right_rot, ROTR. rewrite N.shiftr_div_pow2, N.shiftl_mul_pow2.
  assert (E : 2 ^ 32 = 2 ^ c * 2 ^ (32 - c)) by (rewrite <- N.pow_add_r; f_equal; lia).
  assert (P1 : 2 ^ c <> 0) by (apply N.pow_nonzero; discriminate).
  assert (P2 : 2 ^ (32 - c) <> 0) by (apply N.pow_nonzero; discriminate).
  rewrite E. rewrite N.mul_mod_distr_r by assumption. rewrite N.lor_comm, lor_add; [apply N.add_comm|].
  apply N.div_lt_upper_bound; [exact P1|]. rewrite <- E. exact V.
Qed.
Lemma compl_ok a : w32 a -> compl a = NOT a.
Proof.
  unfold w32. intros A. unfold compl, NOT. change (2 ^ 32 - 1) with (N.ones 32). change (N.lxor a (N.ones 32)) with (N.lnot a 32).
  destruct (N.eq_dec a 0) as [->|NZ]; [reflexivity|]. apply N.lnot_sub_low. apply N.log2_lt_pow2; lia.
Qed.
Lemma plus_ok a b : plus a b = plus32 a b.
Proof. reflexivity. Qed.
Lemma plus32_w a b : w32 (plus32 a b).
Proof. apply N.mod_lt. discriminate. Qed.
Lemma plus32_comm a b : plus32 a b = plus32 b a.
Proof. unfold plus32. rewrite N.add_comm. reflexivity. Qed.
Lemma plus32_assoc a b c : plus32 (plus32 a b) c = plus32 a (plus32 b c).
Proof. unfold plus32. rewrite N.add_mod_idemp_l, N.add_mod_idemp_r by discriminate. f_equal. lia. Qed.

Lemma plus32_four a b c d : plus32 (plus32 (plus32 a b) c) d = (a + b + c + d) mod 2 ^ 32.
Proof.
  unfold plus32. rewrite (N.add_mod_idemp_l (a + b)) by discriminate. rewrite N.add_mod_idemp_l by discriminate. reflexivity.
Qed.

Lemma load_word p0 p1 p2 p3 : p0 < 256 -> p1 < 256 -> p2 < 256 -> p3 < 256 ->
  N.lor (N.lor (N.lor (N.shiftl p0 24) (N.shiftl p1 16)) (N.shiftl p2 8)) p3 = be_to_N [p0; p1; p2; p3] /\ w32 (be_to_N [p0; p1; p2; p3]).
Proof.
  intros L0 L1 L2 L3. rewrite !N.shiftl_mul_pow2.
  replace (p0 * 2 ^ 24) with (p0 * 2 ^ 8 * 2 ^ 16) by (change (2 ^ 24) with (2 ^ 8 * 2 ^ 16); lia).
  assert (E1 : N.lor (p0 * 2 ^ 8 * 2 ^ 16) (p1 * 2 ^ 16) = (p0 * 2 ^ 8 + p1) * 2 ^ 16).
  { rewrite <- !N.shiftl_mul_pow2. rewrite <- N.shiftl_lor. rewrite (N.shiftl_mul_pow2 p0 8), lor_add by exact L1. reflexivity. }
  rewrite E1. replace ((p0 * 2 ^ 8 + p1) * 2 ^ 16) with ((p0 * 2 ^ 8 + p1) * 2 ^ 8 * 2 ^ 8) by (change (2 ^ 16) with (2 ^ 8 * 2 ^ 8); lia).
  assert (E2 : N.lor ((p0 * 2 ^ 8 + p1) * 2 ^ 8 * 2 ^ 8) (p2 * 2 ^ 8) = ((p0 * 2 ^ 8 + p1) * 2 ^ 8 + p2) * 2 ^ 8).
  { rewrite <- (N.shiftl_mul_pow2 _ 8), <- (N.shiftl_mul_pow2 p2 8), <- N.shiftl_lor, lor_add by exact L2. apply N.shiftl_mul_pow2. }
  rewrite E2, lor_add by exact L3. split.
  - unfold be_to_N. cbn [fold_left]. change (2 ^ 8) with 256. rewrite N.mul_0_l, N.add_0_l. reflexivity.
  - unfold w32, be_to_N. cbn [fold_left]. change (2 ^ 32) with 4294967296. lia.
Qed.

Lemma store_word_ok x : store_word x = be_fixed 4 x.
Proof.
  unfold store_word. rewrite !N.shiftr_div_pow2. cbn [be_fixed app]. rewrite !N.div_div by discriminate. reflexivity.
Qed.
Lemma len_bytes_ok : forall c n, len_bytes c n = be_fixed c n.
Proof. induction c as [|c IH]; intros n; [reflexivity|]. cbn [len_bytes be_fixed]. rewrite IH, N.shiftr_div_pow2. reflexivity. Qed.
Lemma length_field T : len_bytes 7 (N.shiftr T 5) ++ [N.shiftl T 3 mod 256] = be_fixed 8 (8 * T).
Proof.
  rewrite len_bytes_ok. change (be_fixed 8 (8 * T)) with (be_fixed 7 (8 * T / 256) ++ [8 * T mod 256]).
  rewrite N.shiftr_div_pow2, N.shiftl_mul_pow2. change (2 ^ 5) with 32. change (2 ^ 3) with 8. rewrite (N.mul_comm T 8).
  change 256 with (8 * 32) at 2. rewrite N.div_mul_cancel_l by discriminate. reflexivity.
Qed.

(** ** The constants. *)
Lemma k_table : k = map K (seq 0 64).
Proof. vm_compute. reflexivity. Qed.
Lemma k_at t : (t < 64)%nat -> nth t k 0 = K t.
Proof.
  intros T. rewrite k_table. rewrite (nth_indep _ 0 (K 0)) by (rewrite map_length, seq_length; exact T).
  rewrite map_nth, seq_nth by exact T. reflexivity.
Qed.
Lemma initial_ok : initial_h = H0.
Proof. vm_compute. reflexivity. Qed.
Lemma indices : forallb (fun i => forallb (fun j => (Nat.lor (Nat.shiftl i 4) j =? 16 * i + j)%nat) (seq 0 16)) (seq 0 4) = true.
Proof. vm_compute. reflexivity. Qed.
Lemma index_ok i j : (i < 4)%nat -> (j < 16)%nat -> Nat.lor (Nat.shiftl i 4) j = (16 * i + j)%nat.
Proof.
  intros I J. pose proof indices as F. rewrite forallb_forall in F. specialize (F i ltac:(apply in_seq; lia)).
  rewrite forallb_forall in F. specialize (F j ltac:(apply in_seq; lia)). apply Nat.eqb_eq, F.
Qed.
Lemma land_15 n : (Nat.land n 15 = n mod 16)%nat.
Proof. exact (Nat.land_ones n 4). Qed.

(** ** The schedule. *)
Lemma extend_length : forall n W, length (extend n W) = (length W + n)%nat.
Proof. induction n as [|n IH]; intros W; cbn [extend]; [lia|]. rewrite IH, app_length. cbn [length]. lia. Qed.
Lemma extend_low : forall n W t, (t < length W)%nat -> nth t (extend n W) 0 = nth t W 0.
Proof.
  induction n as [|n IH]; intros W t T; cbn [extend]; [reflexivity|]. rewrite IH by (rewrite app_length; lia). apply app_nth1, T.
Qed.
Lemma extend_high : forall n W t, (16 <= length W)%nat -> (length W <= t < length W + n)%nat ->
  let E := extend n W in
  nth t E 0 = plus32 (plus32 (plus32 (sigma1 (nth (t - 2) E 0)) (nth (t - 7) E 0)) (sigma0 (nth (t - 15) E 0))) (nth (t - 16) E 0).
Proof.
  induction n as [|n IH]; intros W t L T; [lia|]. cbv zeta. cbn [extend]. set (x := plus32 _ _).
  destruct (Nat.eq_dec t (length W)) as [->|D].
  - rewrite !extend_low by (rewrite app_length; cbn [length]; lia). rewrite app_nth2 by lia. rewrite Nat.sub_diag. cbn [nth].
    rewrite !app_nth1 by lia. reflexivity.
  - apply IH; rewrite app_length; cbn [length]; lia.
Qed.
Lemma extend_w : forall n W, Forall w32 W -> Forall w32 (extend n W).
Proof.
  induction n as [|n IH]; intros W F; cbn [extend]; [exact F|]. apply IH. apply Forall_app. split; [exact F|]. constructor; [apply plus32_w|constructor].
Qed.

Lemma schedule_word x y a b : w32 x -> w32 y ->
  plus (plus (plus a (N.lxor (N.lxor (right_rot x 7) (right_rot x 18)) (N.shiftr x 3))) b)
    (N.lxor (N.lxor (right_rot y 17) (right_rot y 19)) (N.shiftr y 10)) =
  plus32 (plus32 (plus32 (sigma1 y) b) (sigma0 x)) a.
Proof.
  intros X Y. rewrite !right_rot_ok by (try assumption; reflexivity). rewrite !N.shiftr_div_pow2. rewrite !plus_ok. unfold sigma0, sigma1, SHR.
  generalize (N.lxor (N.lxor (ROTR 7 x) (ROTR 18 x)) (x / 2 ^ 3)) (N.lxor (N.lxor (ROTR 17 y) (ROTR 19 y)) (y / 2 ^ 10)). intros s0 s1.
  rewrite !plus32_four. f_equal. clear. lia.
Qed.

(** ** One block. *)
Lemma be_words_at : forall b j, wf_bytes b -> (4 * j + 4 <= length b)%nat ->
  exists p0 p1 p2 p3 r, skipn (4 * j) b = p0 :: p1 :: p2 :: p3 :: r /\ nth j (be_words b) 0 = be_to_N [p0; p1; p2; p3] /\
    p0 < 256 /\ p1 < 256 /\ p2 < 256 /\ p3 < 256.
Proof.
  intros b j. revert b. induction j as [|j IH]; intros b W L; destruct b as [|p0 [|p1 [|p2 [|p3 r]]]]; cbn [length] in L; try lia;
    apply wf_cons in W; destruct W as [W0 W]; apply wf_cons in W; destruct W as [W1 W]; apply wf_cons in W; destruct W as [W2 W];
    apply wf_cons in W; destruct W as [W3 W].
  - exists p0, p1, p2, p3, r. auto 10.
  - destruct (IH r W ltac:(lia)) as (q0 & q1 & q2 & q3 & r' & E & E' & Q). exists q0, q1, q2, q3, r'.
    replace (4 * S j)%nat with (4 + 4 * j)%nat by lia. split; [exact E|]. split; [exact E'|exact Q].
Qed.
Lemma be_words_length : forall n b, length b = (4 * n)%nat -> length (be_words b) = n.
Proof.
  induction n as [|n IH]; intros b L; [destruct b; [reflexivity|discriminate L]|]. destruct b as [|p0 [|p1 [|p2 [|p3 r]]]]; cbn [length] in L; try lia.
  cbn [be_words length]. rewrite (IH r) by lia. reflexivity.
Qed.
Lemma be_words_w : forall n b, length b = (4 * n)%nat -> wf_bytes b -> Forall w32 (be_words b).
Proof.
  induction n as [|n IH]; intros b L W; [destruct b; [constructor|discriminate L]|]. destruct b as [|p0 [|p1 [|p2 [|p3 r]]]]; cbn [length] in L; try lia.
  apply wf_cons in W; destruct W as [W0 W]; apply wf_cons in W; destruct W as [W1 W]; apply wf_cons in W; destruct W as [W2 W];
    apply wf_cons in W; destruct W as [W3 W]. cbn [be_words]. constructor; [apply load_word; assumption|]. apply IH; [lia|exact W].
Qed.

Lemma upd_length {X} : forall i (x : X) l, length (upd i x l) = length l.
Proof. induction i as [|i IH]; intros x [|y l]; cbn; auto. Qed.
Lemma upd_same {X} : forall i (x : X) l, (i < length l)%nat -> nth_error (upd i x l) i = Some x.
Proof. induction i as [|i IH]; intros x [|y l] L; cbn in *; try lia; auto. apply IH. lia. Qed.
Lemma upd_other {X} : forall i j (x : X) l, i <> j -> nth_error (upd i x l) j = nth_error l j.
Proof. induction i as [|i IH]; intros [|j] x [|y l] D; cbn; try reflexivity; try congruence. apply IH. congruence. Qed.

Section Block.
  Variable chunk : bytes.
  Hypothesis Lc : length chunk = 64%nat.
  Hypothesis Wc : wf_bytes chunk.
  Let W := schedule (be_words chunk).

  Lemma W_low t : (t < 16)%nat -> nth t W 0 = nth t (be_words chunk) 0.
  Proof. intros T. apply extend_low. rewrite (be_words_length 16) by exact Lc. exact T. Qed.
  Lemma W_high t : (16 <= t < 64)%nat ->
    nth t W 0 = plus32 (plus32 (plus32 (sigma1 (nth (t - 2) W 0)) (nth (t - 7) W 0)) (sigma0 (nth (t - 15) W 0))) (nth (t - 16) W 0).
  Proof. intros T. apply extend_high; rewrite (be_words_length 16) by exact Lc; lia. Qed.
  Lemma W_w t : w32 (nth t W 0).
  Proof.
    assert (F : Forall w32 W) by (apply extend_w, (be_words_w 16); assumption). destruct (nth_in_or_default t W 0) as [I| ->]; [|reflexivity].
    rewrite Forall_forall in F. apply F, I.
  Qed.

  Definition holds_w (t : nat) (w : list (option N)) : Prop :=
    length w = 16%nat /\ forall u, (u < t <= u + 16)%nat -> nth_error w (u mod 16) = Some (Some (nth u W 0)).
  Definition words8 (v : working) : Prop := Forall w32 (to_list v).

  Lemma get_w_ok t w u : holds_w t w -> (u < t <= u + 16)%nat -> get_w w (u mod 16) = Some (nth u W 0).
  Proof. intros [_ H] U. unfold get_w. rewrite H by exact U. reflexivity. Qed.

  Lemma next_w_ok i j w : (i < 4)%nat -> (j < 16)%nat -> holds_w (16 * i + j) w -> next_w chunk i j w = Some (nth (16 * i + j) W 0).
  Proof.
    intros I J H. unfold next_w. destruct (Nat.eqb_spec i 0) as [->|NZ].
    - change (16 * 0 + j)%nat with j. rewrite W_low by exact J.
      destruct (be_words_at chunk j Wc ltac:(lia)) as (p0 & p1 & p2 & p3 & r & -> & -> & B0 & B1 & B2 & B3).
      f_equal. apply load_word; assumption.
    - rewrite !land_15. set (t := (16 * i + j)%nat) in *.
      assert (E1 : ((j + 1) mod 16 = (t - 15) mod 16)%nat) by (unfold t; replace (16 * i + j - 15)%nat with (j + 1 + (i - 1) * 16)%nat by lia; rewrite Nat.mod_add; [reflexivity|discriminate]).
      assert (E14 : ((j + 14) mod 16 = (t - 2) mod 16)%nat) by (unfold t; replace (16 * i + j - 2)%nat with (j + 14 + (i - 1) * 16)%nat by lia; rewrite Nat.mod_add; [reflexivity|discriminate]).
      assert (E9 : ((j + 9) mod 16 = (t - 7) mod 16)%nat) by (unfold t; replace (16 * i + j - 7)%nat with (j + 9 + (i - 1) * 16)%nat by lia; rewrite Nat.mod_add; [reflexivity|discriminate]).
      assert (E0 : (j = (t - 16) mod 16)%nat) by (unfold t; replace (16 * i + j - 16)%nat with (j + (i - 1) * 16)%nat by lia; rewrite Nat.mod_add by discriminate; symmetry; apply Nat.mod_small; exact J).
      rewrite E1, E14, E9. rewrite E0.
      assert (T : (16 <= t < 64)%nat) by (unfold t; lia).
      rewrite (get_w_ok t w (t - 15) H), (get_w_ok t w (t - 2) H), (get_w_ok t w (t - 7) H) by lia.
      rewrite (get_w_ok t w (t - 16) H) by lia.
      rewrite (W_high t T). f_equal. apply schedule_word; apply W_w.
  Qed.

  Lemma store_w t w : holds_w t w -> holds_w (S t) (upd (t mod 16) (Some (nth t W 0)) w).
  Proof.
    intros [L H]. split; [rewrite upd_length; exact L|]. intros u U. destruct (Nat.eq_dec u t) as [->|D].
    - apply upd_same. rewrite L. apply Nat.mod_upper_bound. discriminate.
    - rewrite upd_other; [apply H; lia|]. intros E.
      pose proof (Nat.div_mod u 16 ltac:(discriminate)). pose proof (Nat.div_mod t 16 ltac:(discriminate)). lia.
  Qed.

  Lemma next_ah_ok i j v : (i < 4)%nat -> (j < 16)%nat -> words8 v ->
    next_ah i j (nth (16 * i + j) W 0) (to_list v) = to_list (round W v (16 * i + j)) /\ words8 (round W v (16 * i + j)).
  Proof.
    intros I J Wv. unfold words8, to_list in Wv. repeat (apply Forall_cons_iff in Wv; destruct Wv as [? Wv]).
    split.
    - unfold next_ah, to_list, round. cbn [nth upd wa wb wc wd we wf wg wh].
      rewrite index_ok by assumption. rewrite k_at by lia. rewrite !right_rot_ok by (try assumption; reflexivity). rewrite compl_ok by assumption.
      reflexivity.
    - unfold words8, to_list, round. cbn [wa wb wc wd we wf wg wh]. repeat (apply Forall_cons; [first [assumption | apply plus32_w]|]). constructor.
  Qed.

  Lemma inner_ok i : (i < 4)%nat -> forall count j w v, (j + count = 16)%nat -> holds_w (16 * i + j) w -> words8 v ->
    exists w', inner chunk i (seq j count) w (to_list v) = Some (w', to_list (fold_left (round W) (seq (16 * i + j) count) v)) /\
      holds_w (16 * i + 16) w' /\ words8 (fold_left (round W) (seq (16 * i + j) count) v).
  Proof.
    intros I. induction count as [|c IH]; intros j w v J H Wv; cbn [seq inner fold_left].
    - exists w. split; [reflexivity|]. split; [replace 16%nat with j at 2 by lia; exact H|exact Wv].
    - rewrite next_w_ok by (try assumption; lia).
      destruct (next_ah_ok i j v I ltac:(lia) Wv) as [-> Wv'].
      replace (S (16 * i + j)) with (16 * i + S j)%nat by lia. apply IH; [lia| |exact Wv'].
      replace (16 * i + S j)%nat with (S (16 * i + j)) by lia.
      replace j with ((16 * i + j) mod 16)%nat at 2 by (replace (16 * i + j)%nat with (j + i * 16)%nat by lia; rewrite Nat.mod_add by discriminate; apply Nat.mod_small; lia).
      apply store_w, H.
  Qed.

  Lemma outer_ok : forall count i w v, (i + count = 4)%nat -> holds_w (16 * i) w -> words8 v ->
    outer true chunk (seq i count) w (to_list v) = Some (to_list (fold_left (round W) (seq (16 * i) (16 * count)) v)) /\
    words8 (fold_left (round W) (seq (16 * i) (16 * count)) v).
  Proof.
    induction count as [|c IH]; intros i w v I H Wv.
    - split; [reflexivity|exact Wv].
    - change (seq i (S c)) with (i :: seq (S i) c). cbn [outer]. destruct (inner_ok i ltac:(lia) 16 0 w v eq_refl ltac:(rewrite Nat.add_0_r; exact H) Wv) as (w' & E & H' & Wv').
      rewrite E. rewrite Nat.add_0_r in *. replace (16 * S c)%nat with (16 + 16 * c)%nat by lia.
      rewrite seq_app, fold_left_app. replace (16 * i + 16)%nat with (16 * S i)%nat in * by lia. apply IH; [lia|exact H'|exact Wv'].
  Qed.

  Lemma fresh_holds : holds_w 0 fresh_w.
  Proof. split; [reflexivity|]. intros u U. lia. Qed.

  Lemma block_ok H : length H = 8%nat -> Forall w32 H ->
    exists ah, outer true chunk (seq 0 4) fresh_w H = Some ah /\
      map (fun x => plus (fst x) (snd x)) (combine H ah) = compress_block H chunk /\
      length (compress_block H chunk) = 8%nat /\ Forall w32 (compress_block H chunk).
  Proof.
    intros L F. assert (E : H = to_list (of_list H)).
    { destruct H as [|h0 [|h1 [|h2 [|h3 [|h4 [|h5 [|h6 [|h7 [|]]]]]]]]]; try discriminate L. reflexivity. }
    assert (Wv : words8 (of_list H)) by (unfold words8; rewrite <- E; exact F).
    destruct (outer_ok 4 0 fresh_w (of_list H) eq_refl fresh_holds Wv) as [Eo _]. rewrite <- E in Eo.
    eexists. split; [exact Eo|]. unfold compress_block. fold W. change (16 * 4)%nat with 64%nat. change (16 * 0)%nat with 0%nat.
    set (r := fold_left _ _ _). clearbody r. clear Eo E Wv.
    destruct H as [|h0 [|h1 [|h2 [|h3 [|h4 [|h5 [|h6 [|h7 [|]]]]]]]]]; try discriminate L.
    unfold to_list, add_lists. cbn [combine map fst snd]. change plus with plus32. split.
    - rewrite (plus32_comm h0), (plus32_comm h1), (plus32_comm h2), (plus32_comm h3), (plus32_comm h4), (plus32_comm h5), (plus32_comm h6), (plus32_comm h7). reflexivity.
    - split; [reflexivity|]. repeat (apply Forall_cons; [apply plus32_w|]). constructor.
  Qed.
End Block.

(** With the array indeterminate, the second iteration reads it. *)
Lemma outer_indeterminate chunk h : outer false chunk (seq 0 4) fresh_w h = None.
Proof.
  cbn [seq outer]. destruct (inner chunk 0 _ fresh_w h) as [[w ah]|]; [|reflexivity]. reflexivity.
Qed.

(** ** The chunks. *)
Definition pad (len : nat) (T : N) : bytes := [128] ++ zeros (pad_zeros len) ++ be_fixed 8 (8 * T).

Lemma hash_blocks_step H b : (64 <= length b)%nat ->
  hash_blocks (length b / 64) H b = hash_blocks (length (skipn 64 b) / 64) (compress_block H (firstn 64 b)) (skipn 64 b).
Proof.
  intros L. rewrite skipn_length. replace (length b / 64)%nat with (S ((length b - 64) / 64)); [reflexivity|].
  replace (length b) with (1 * 64 + (length b - 64))%nat at 2 by lia. rewrite Nat.div_add_l by discriminate. reflexivity.
Qed.
Lemma hash_blocks_one H b : length b = 64%nat -> hash_blocks (length b / 64) H b = compress_block H b.
Proof.
  intros L. rewrite hash_blocks_step by lia. rewrite skipn_length, L. cbn [Nat.sub]. change (0 / 64)%nat with 0%nat. cbn [hash_blocks].
  rewrite firstn_all2 by lia. reflexivity.
Qed.

Lemma last_chunk f T H : length H = 8%nat -> Forall w32 H ->
  chunks true (S (S f)) (mkState [] 0 T true false) H = Some (compress_block H (zeros 56 ++ be_fixed 8 (8 * T))).
Proof.
  intros L F. cbn [chunks]. unfold calc_chunk at 1. cbn [total_len_delivered len p single_one_delivered total_len].
  change (64 <=? 0)%nat with false. change (length (@nil N) <? 0)%nat with false. cbv iota zeta beta. change (8 <=? 64 - 0)%nat with true. cbv iota.
  change (firstn 0 (@nil N)) with (@nil N). change (skipn 0 (@nil N)) with (@nil N). cbn [app]. change (64 - 0 - 8)%nat with 56%nat. rewrite length_field.
  destruct (block_ok (zeros 56 ++ be_fixed 8 (8 * T))) with (H := H) as (ah & -> & -> & _); try assumption.
  - rewrite app_length, be_fixed_length. reflexivity.
  - apply wf_app. split; [apply wf_zeros|apply be_fixed_wf].
  - reflexivity.
Qed.

Lemma chunks_ok T : forall fuel m H, wf_bytes m -> (length m / 64 + 3 <= fuel)%nat -> length H = 8%nat -> Forall w32 H ->
  chunks true fuel (mkState m (length m) T false false) H =
  Some (hash_blocks (length (m ++ pad (length m) T) / 64) H (m ++ pad (length m) T)).
Proof.
  induction fuel as [|f IH]; intros m H Wm Fu L F; [lia|]. cbn [chunks]. unfold calc_chunk at 1. cbn [total_len_delivered len p single_one_delivered total_len].
  assert (Lp : length (pad (length m) T) = (9 + pad_zeros (length m))%nat).
  { unfold pad. rewrite !app_length, be_fixed_length. unfold zeros. rewrite repeat_length. cbn [length]. lia. }
  destruct (Nat.leb_spec 64 (length m)) as [G|G].
  - rewrite (proj2 (Nat.ltb_ge _ _) G).
    destruct (block_ok (firstn 64 m)) with (H := H) as (ah & -> & -> & L' & F'); try assumption.
    { rewrite firstn_length. lia. }
    { apply wf_firstn, Wm. }
    replace (length m - 64)%nat with (length (skipn 64 m)) by apply skipn_length.
    rewrite IH; try assumption.
    + rewrite (hash_blocks_step H (m ++ _)) by (rewrite app_length; lia).
      rewrite (firstn_app 64), (skipn_app 64). replace (64 - length m)%nat with 0%nat by lia. rewrite firstn_O, skipn_O, app_nil_r.
      assert (Ep : pad (length (skipn 64 m)) T = pad (length m) T).
      { unfold pad, pad_zeros. rewrite skipn_length. replace (length m mod 64)%nat with ((length m - 64) mod 64)%nat; [reflexivity|].
        replace (length m) with (length m - 64 + 1 * 64)%nat at 2 by lia. symmetry. apply Nat.mod_add. discriminate. }
      rewrite Ep. reflexivity.
    + apply wf_skipn, Wm.
    + rewrite skipn_length. assert (E : (length m / 64 = S ((length m - 64) / 64))%nat).
      { replace (length m) with (1 * 64 + (length m - 64))%nat at 1 by lia. rewrite Nat.div_add_l by discriminate. reflexivity. }
      lia.
  - rewrite (proj2 (Nat.ltb_ge _ _) (Nat.le_refl _)). rewrite firstn_all, skipn_all.
    cbv iota zeta beta. assert (Sm : (length m mod 64 = length m)%nat) by (apply Nat.mod_small; exact G).
    destruct (Nat.leb_spec 8 (64 - length m - 1)) as [S1|S2].
    + rewrite <- !app_assoc. rewrite length_field.
      assert (Ez : pad_zeros (length m) = (64 - length m - 1 - 8)%nat).
      { unfold pad_zeros. rewrite Sm. replace (119 - length m)%nat with ((55 - length m) + 1 * 64)%nat by lia. rewrite Nat.mod_add by discriminate.
        rewrite Nat.mod_small by lia. lia. }
      rewrite <- Ez. change (m ++ [128] ++ zeros (pad_zeros (length m)) ++ be_fixed 8 (8 * T)) with (m ++ pad (length m) T).
      assert (L64 : length (m ++ pad (length m) T) = 64%nat) by (rewrite app_length, Lp, Ez; lia).
      assert (W64 : wf_bytes (m ++ pad (length m) T)).
      { apply wf_app. split; [exact Wm|]. unfold pad. apply wf_app. split; [repeat constructor|]. apply wf_app. split; [apply wf_zeros|apply be_fixed_wf]. }
      destruct (block_ok _ L64 W64 H L F) as (ah & -> & -> & _). rewrite (hash_blocks_one H _ L64).
      destruct f; [lia|]. reflexivity.
    + assert (Ez : pad_zeros (length m) = (64 - length m - 1 + 56)%nat).
      { unfold pad_zeros. rewrite Sm. rewrite Nat.mod_small by lia. lia. }
      assert (Es : m ++ pad (length m) T = ((m ++ [128]) ++ zeros (64 - length m - 1)) ++ (zeros 56 ++ be_fixed 8 (8 * T))).
      { unfold pad. rewrite Ez. unfold zeros. rewrite repeat_app. rewrite <- !app_assoc. reflexivity. }
      rewrite Es. set (first := (m ++ [128]) ++ zeros (64 - length m - 1)).
      assert (L64 : length first = 64%nat) by (unfold first, zeros; rewrite !app_length, repeat_length; cbn [length]; lia).
      assert (W64 : wf_bytes first) by (unfold first; apply wf_app; split; [apply wf_app; split; [exact Wm|repeat constructor]|apply wf_zeros]).
      destruct (block_ok _ L64 W64 H L F) as (ah & -> & -> & L' & F').
      rewrite (hash_blocks_step H) by (rewrite app_length; lia).
      rewrite (firstn_app_exact first) by (symmetry; exact L64). rewrite (skipn_app_exact first) by (symmetry; exact L64).
      rewrite (hash_blocks_one _ (zeros 56 ++ _)) by (rewrite app_length, be_fixed_length; reflexivity).
      destruct f as [|[|f]]; [lia|lia|]. apply last_chunk; assumption.
Qed.

Lemma sha256_ok m : wf_bytes m -> calc_sha_256 true m = Some (sha256 m).
Proof.
  intros W. unfold calc_sha_256, init_buf_state. rewrite chunks_ok; try assumption.
  - unfold sha256. f_equal. f_equal. rewrite initial_ok. apply map_ext. exact store_word_ok.
  - apply Nat.le_refl.
  - reflexivity.
  - repeat (apply Forall_cons; [reflexivity|]). constructor.
Qed.
Lemma sha256_indeterminate m : calc_sha_256 false m = None.
Proof.
  unfold calc_sha_256. replace (length m / 64 + 3)%nat with (S (length m / 64 + 2)) by lia. cbn [chunks].
  destruct (calc_chunk (init_buf_state m)) as [[[chunk st]|]|] eqn:E; [|exfalso|reflexivity].
  - rewrite outer_indeterminate. reflexivity.
  - unfold calc_chunk, init_buf_state in E. cbn [total_len_delivered len p single_one_delivered total_len] in E.
    destruct (64 <=? length m)%nat; [destruct (length m <? 64)%nat; discriminate E|]. destruct (length m <? length m)%nat; [discriminate E|].
    destruct (8 <=? 64 - length m - 1)%nat; discriminate E.
Qed.
