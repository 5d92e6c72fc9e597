(** The padding, the digest and the theorem. *)
From Verif Require Import Base BaseFacts KeccakSpec KeccakModel KeccakProofs KeccakProofs2 KeccakProofs3.

(** The padding in bytes: [q] bytes. *)
Definition pad_bytes (q : nat) : bytes :=
  match q with
  | O => []
  | S O => [0x81]
  | S (S k) => 0x01 :: zeros k ++ [0x80]
  end.

Lemma pad_bytes_length q : length (pad_bytes q) = q.
Proof. destruct q as [|[|k]]; [reflexivity|reflexivity|]. cbn [pad_bytes length]. rewrite app_length. unfold zeros. rewrite repeat_length. cbn [length]. lia. Qed.

Lemma zeros_bits k : message_bits (zeros k) = repeat false (8 * k).
Proof.
  induction k as [|k IH]; [reflexivity|]. change (zeros (S k)) with (0 :: zeros k).
  change (message_bits (0 :: zeros k)) with (byte_bits 0 ++ message_bits (zeros k)). rewrite IH.
  replace (8 * S k)%nat with (8 + 8 * k)%nat by lia. rewrite repeat_app. reflexivity.
Qed.

Lemma pad_bits q : (0 < q)%nat -> message_bits (pad_bytes q) = [true] ++ repeat false (8 * q - 2) ++ [true].
Proof.
  intros Q. destruct q as [|[|k]]; [lia|reflexivity|]. cbn [pad_bytes].
  change (1 :: zeros k ++ [128]) with ([1] ++ zeros k ++ [128]). rewrite !message_bits_app, zeros_bits.
  replace (8 * S (S k) - 2)%nat with (7 + (8 * k + 7))%nat by lia. rewrite !repeat_app.
  change (message_bits [1]) with ([true] ++ repeat false 7). change (message_bits [128]) with (repeat false 7 ++ [true]).
  rewrite <- !app_assoc. reflexivity.
Qed.

Lemma nth_zeros k i : nth i (zeros k) 0 = 0.
Proof. unfold zeros. revert i. induction k as [|k IH]; intros [|i]; try reflexivity. apply IH. Qed.

(** The last block: what is left of the input, 0x01 and the bit at the end. *)
Lemma last_block R rest b : (length rest < R)%nat ->
  nth b (rest ++ pad_bytes (R - length rest)) 0 =
  nth b (rest ++ [0x01]) 0 ^^ (if (b =? R - 1)%nat then 0x80 else 0).
Proof.
  intros L. destruct (Nat.lt_ge_cases b (length rest)) as [Lt|Ge].
  - rewrite !app_nth1 by exact Lt. destruct (Nat.eqb_spec b (R - 1)); [lia|]. rewrite N.lxor_0_r. reflexivity.
  - rewrite !app_nth2 by exact Ge. remember (R - length rest)%nat as q eqn:Eq. remember (b - length rest)%nat as c eqn:Ec.
    replace (b =? R - 1)%nat with (c =? q - 1)%nat by (destruct (Nat.eqb_spec c (q - 1)), (Nat.eqb_spec b (R - 1)); lia).
    destruct q as [|[|k]]; [lia| |]; cbn [pad_bytes].
    + destruct c as [|c]; [reflexivity|]. cbn [nth]. destruct c; reflexivity.
    + replace (S (S k) - 1)%nat with (S k) by lia. destruct c as [|c]; [reflexivity|]. cbn [nth Nat.eqb].
      replace (match c with O | _ => 0 end) with 0 by (destruct c; reflexivity).
      destruct (Nat.lt_ge_cases c k) as [Lc|Gc].
      * rewrite app_nth1 by (unfold zeros; rewrite repeat_length; exact Lc). rewrite nth_zeros.
        destruct (Nat.eqb_spec c k); [lia|]. reflexivity.
      * rewrite app_nth2 by (unfold zeros; rewrite repeat_length; exact Gc). unfold zeros. rewrite repeat_length.
        destruct (Nat.eqb_spec c k) as [->|D].
        -- rewrite Nat.sub_diag. reflexivity.
        -- destruct (c - k)%nat as [|[|j]] eqn:Ej; [lia| |]; reflexivity.
Qed.

Lemma top_bit : lane 0x8000000000000000 (fun z => z =? 63).
Proof.
  split; [reflexivity|]. intros z Z. change 0x8000000000000000 with (2 ^ 63). rewrite N.pow2_bits_eqb.
  apply N.eqb_sym.
Qed.

(** The words that the code adds for the rest of the input and the padding. *)
Lemma finish W A rest s : wf_bytes rest -> (0 < W <= 25)%nat -> (length rest < 8 * W)%nat ->
  holds s (plus A (firstn (8 * (length rest / 8)) rest)) ->
  exists lw s1 s2, last_word_bytes (skipn (8 * (length rest / 8)) rest) = Some lw /\
    xor_at (length rest / 8) (le_to_N lw) s = Some s1 /\
    xor_at (W - 1) 0x8000000000000000 s1 = Some s2 /\
    holds s2 (plus A (rest ++ pad_bytes (8 * W - length rest))).
Proof.
  intros Wf W25 L H. set (k := (length rest / 8)%nat) in *. set (tail := skipn (8 * k) rest).
  assert (Lt : length tail = (length rest - 8 * k)%nat) by apply skipn_length.
  assert (Bt : (length tail < 8)%nat) by lia.
  unfold last_word_bytes. replace (8 <=? length tail)%nat with false by (symmetry; apply Nat.leb_gt; exact Bt).
  set (lw := tail ++ [1] ++ zeros (7 - length tail)).
  assert (Wl : wf_bytes lw).
  { apply Forall_app. split; [apply wf_skipn, Wf|]. apply Forall_app. split; [repeat constructor|].
    unfold zeros. apply Forall_forall. intros x X. apply repeat_spec in X. subst. reflexivity. }
  assert (Ll : length lw = 8%nat).
  { unfold lw. rewrite !app_length. unfold zeros. rewrite repeat_length. cbn [length]. lia. }
  pose proof (le_word_lane lw Wl ltac:(lia)) as Lw.
  destruct (xor_at_ok k _ _ s _ ltac:(lia) Lw H) as (s1 & E1 & H1).
  assert (H1' : holds s1 (plus A (rest ++ [1]))).
  { apply (holds_ext _ _ _ H1). intros x y z X Y Z. cbv beta. unfold plus, bit_of.
    assert (Nl : forall i, nth i lw 0 = nth (8 * k + i) (rest ++ [1]) 0).
    { intros i. replace (rest ++ [1]) with (firstn (8 * k) rest ++ tail ++ [1]) by (rewrite app_assoc; unfold tail; rewrite firstn_skipn; reflexivity).
      rewrite (app_nth2 (firstn (8 * k) rest)) by (rewrite firstn_length; lia). rewrite firstn_length.
      replace (8 * k + i - Nat.min (8 * k) (length rest))%nat with i by lia. unfold lw. rewrite app_assoc.
      destruct (Nat.lt_ge_cases i (length (tail ++ [1]))) as [A1|A2].
      - apply app_nth1, A1.
      - rewrite app_nth2 by exact A2. rewrite nth_zeros. symmetry. apply nth_overflow, A2. }
    destruct (Nat.eqb_spec (5 * y + x) k) as [Ek|D].
    - rewrite Ek. rewrite nth_firstn_ge by lia. rewrite N.bits_0, xorb_false_r, Nl. reflexivity.
    - destruct (Nat.lt_ge_cases (5 * y + x) k) as [A1|A2].
      + rewrite nth_firstn_lt by lia. rewrite app_nth1 by lia. reflexivity.
      + rewrite nth_firstn_ge by lia. rewrite nth_overflow by (rewrite app_length; cbn [length]; lia). reflexivity. }
  destruct (xor_at_ok (W - 1) _ _ s1 _ ltac:(lia) top_bit H1') as (s2 & E2 & H2).
  exists lw, s1, s2. split; [reflexivity|]. split; [exact E1|]. split; [exact E2|].
  apply (holds_ext _ _ _ H2). intros x y z X Y Z. cbv beta. unfold plus, bit_of.
  rewrite (last_block (8 * W)) by exact L. rewrite N.lxor_spec.
  assert (Top : N.testbit (if (8 * (5 * y + x) + N.to_nat (z / 8) =? 8 * W - 1)%nat then 128 else 0) (z mod 8) =
                ((5 * y + x =? W - 1)%nat && (z =? 63))).
  { destruct (Nat.eqb_spec (8 * (5 * y + x) + N.to_nat (z / 8)) (8 * W - 1)) as [E|D].
    - replace (5 * y + x =? W - 1)%nat with true by (symmetry; apply Nat.eqb_eq; lia).
      change 128 with (2 ^ 7). rewrite N.pow2_bits_eqb. cbn [andb].
      destruct (N.eqb_spec 7 (z mod 8)), (N.eqb_spec z 63); lia.
    - rewrite N.bits_0. symmetry. destruct (Nat.eqb_spec (5 * y + x) (W - 1)), (N.eqb_spec z 63); try reflexivity. lia. }
  rewrite Top. destruct (5 * y + x =? W - 1)%nat; cbn [andb]; [rewrite xorb_assoc; reflexivity|].
  rewrite xorb_false_r. reflexivity.
Qed.

(** The digest. *)
Lemma bits_value n : forall c s,
  fold_right (fun j acc => bit_value (N.testbit n (N.of_nat j)) + 2 * acc) 0 (seq s c) = n / 2 ^ N.of_nat s mod 2 ^ N.of_nat c.
Proof.
  induction c as [|c IH]; intros s.
  - cbn [seq fold_right]. change (2 ^ N.of_nat 0) with 1. rewrite N.mod_1_r. reflexivity.
  - cbn [seq fold_right]. rewrite IH. rewrite !Nat2N.inj_succ, !N.pow_succ_r'.
    rewrite (N.mul_comm 2 (2 ^ N.of_nat s)), <- N.div_div by (try apply N.pow_nonzero; lia).
    rewrite N.mod_mul_r by (try apply N.pow_nonzero; lia).
    f_equal. unfold bit_value. rewrite N.testbit_eqb.
    destruct (N.eqb_spec ((n / 2 ^ N.of_nat s) mod 2) 1) as [E|D]; [symmetry; exact E|].
    pose proof (N.mod_lt (n / 2 ^ N.of_nat s) 2 ltac:(lia)) as M.
    revert D M. generalize ((n / 2 ^ N.of_nat s) mod 2). lia.
Qed.

Lemma le_byte_bits w (A : array) x y b : lane w (A x y) -> (b < 8)%nat ->
  w / 256 ^ N.of_nat b mod 256 =
  fold_right (fun j acc => bit_value (A x y (N.of_nat (8 * b + j))) + 2 * acc) 0 (seq 0 8).
Proof.
  intros [_ E] B.
  assert (P : 256 ^ N.of_nat b = 2 ^ (8 * N.of_nat b)) by (rewrite N.pow_mul_r; reflexivity).
  rewrite P. pose proof (bits_value (w / 2 ^ (8 * N.of_nat b)) 8 0) as V.
  change (2 ^ N.of_nat 0) with 1 in V. change (2 ^ N.of_nat 8) with 256 in V. rewrite N.div_1_r in V. rewrite <- V.
  cbn [seq fold_right].
  rewrite !N.div_pow2_bits.
  repeat match goal with |- context [N.testbit w ?i] => rewrite (E i) by (cbn; lia) end.
  repeat (f_equal; try (f_equal; lia)).
Qed.

Lemma le_bytes_nth : forall k n b, (b < k)%nat -> nth b (le_bytes k n) 0 = n / 256 ^ N.of_nat b mod 256.
Proof.
  induction k as [|k IH]; intros n b L; [lia|]. cbn [le_bytes]. destruct b as [|b].
  - cbn [nth]. change (256 ^ N.of_nat 0) with 1. rewrite N.div_1_r. reflexivity.
  - cbn [nth]. rewrite IH by lia. rewrite Nat2N.inj_succ, N.pow_succ_r', N.div_div; [reflexivity|lia|].
    apply N.pow_nonzero. lia.
Qed.
Lemma le_bytes_length : forall k n, length (le_bytes k n) = k.
Proof. induction k as [|k IH]; intros n; [reflexivity|]. cbn [le_bytes length]. rewrite IH. reflexivity. Qed.

Lemma words_nth : forall ws i b, (i < length ws)%nat -> (b < 8)%nat ->
  nth (8 * i + b) (concat (map (le_bytes 8) ws)) 0 = nth b (le_bytes 8 (nth i ws 0)) 0.
Proof.
  induction ws as [|w ws IH]; intros i b L B; [cbn [length] in L; lia|]. cbn [map concat]. destruct i as [|i].
  - replace (8 * 0 + b)%nat with b by lia. apply app_nth1. rewrite le_bytes_length. exact B.
  - rewrite app_nth2 by (rewrite le_bytes_length; lia). rewrite le_bytes_length.
    replace (8 * S i + b - 8)%nat with (8 * i + b)%nat by lia. cbn [nth]. apply IH; [cbn [length] in L; lia|exact B].
Qed.
Lemma words_length ws : length (concat (map (le_bytes 8) ws)) = (8 * length ws)%nat.
Proof. induction ws as [|w ws IH]; [reflexivity|]. cbn [map concat length]. rewrite app_length, le_bytes_length, IH. lia. Qed.

Lemma digest_ok s A q : holds s A -> (q <= 25)%nat ->
  concat (map (le_bytes 8) (firstn q s)) = squeeze (64 * q) A.
Proof.
  intros [Ls H] Q. unfold squeeze. replace (64 * q / 8)%nat with (8 * q)%nat by lia.
  assert (Lf : length (firstn q s) = q) by (rewrite firstn_length; lia).
  set (g := fun k => fold_right (fun j acc => bit_value (state_bit A (8 * k + j)) + 2 * acc) 0 (seq 0 8)).
  apply nth_ext with 0 (g 0%nat).
  - rewrite words_length, map_length, seq_length. lia.
  - rewrite words_length, Lf. intros n L.
    rewrite (map_nth g). rewrite seq_nth by lia.
    replace n with (8 * (n / 8) + n mod 8)%nat at 1 by lia. rewrite words_nth by (rewrite ?Lf; lia).
    rewrite nth_firstn_lt by lia. rewrite le_bytes_nth by lia.
    pose proof (H ((n / 8) mod 5)%nat (n / 8 / 5)%nat ltac:(lia) ltac:(lia)) as Hl.
    replace (5 * (n / 8 / 5) + (n / 8) mod 5)%nat with (n / 8)%nat in Hl by lia.
    rewrite (le_byte_bits _ A _ _ _ Hl) by lia. unfold g. cbn [seq fold_right].
    assert (B : forall j, (j < 8)%nat ->
      A ((n / 8) mod 5)%nat (n / 8 / 5)%nat (N.of_nat (8 * (n mod 8) + j)) = state_bit A (8 * (0 + n) + j)).
    { intros j J. unfold state_bit. replace ((8 * (0 + n) + j) / 64)%nat with (n / 8)%nat by lia.
      replace ((8 * (0 + n) + j) mod 64)%nat with (8 * (n mod 8) + j)%nat by lia. reflexivity. }
    rewrite !B by lia. reflexivity.
Qed.

Lemma zero_holds : holds (repeat 0 25) zero_array.
Proof.
  split; [reflexivity|]. intros x y X Y. rewrite nth_repeat. split; [reflexivity|]. intros z Z. apply N.bits_0.
Qed.

Lemma wf_pad q : wf_bytes (pad_bytes q).
Proof.
  destruct q as [|[|k]]; [constructor|repeat constructor|]. cbn [pad_bytes]. constructor; [reflexivity|].
  apply Forall_app. split; [|repeat constructor]. unfold zeros. apply Forall_forall. intros x X.
  apply repeat_spec in X. subst. reflexivity.
Qed.

(** The theorem, for a digest of [64 q] bits. *)
Lemma keccak_impl_ok q input : (0 < q <= 8)%nat -> wf_bytes input ->
  keccak_impl (64 * q) input = Some (keccak_digest (64 * q) input).
Proof.
  intros Q Wf. unfold keccak_impl. set (W := (25 - 2 * q)%nat).
  replace ((1600 - 64 * q * 2) / 8)%nat with (8 * W)%nat by (unfold W; lia).
  replace (8 * W / 8)%nat with W by lia. replace (64 * q / 8 / 8)%nat with q by lia.
  assert (W25 : (0 < W <= 25)%nat) by (unfold W; lia).
  destruct (consume_ok W W25 (S (length input)) input _ _ Wf (Nat.lt_succ_diag_r _) zero_holds) as (s & E & H).
  set (nb := (length input / (8 * W))%nat) in *. set (rest := skipn (nb * (8 * W)) input) in *.
  assert (Lr : length rest = (length input mod (8 * W))%nat).
  { unfold rest. rewrite skipn_length. unfold nb. pose proof (Nat.div_mod_eq (length input) (8 * W)) as D.
    rewrite (Nat.mul_comm (8 * W)) in D. revert D. generalize (length input / (8 * W) * (8 * W))%nat. clear. lia. }
  assert (Lt : (length rest < 8 * W)%nat) by (rewrite Lr; apply Nat.mod_upper_bound; lia).
  rewrite E. destruct (finish W _ rest s (wf_skipn _ _ Wf) W25 Lt H) as (lw & s1 & s2 & E1 & E2 & E3 & H2).
  rewrite E1, E2, E3. f_equal.
  set (q' := (8 * W - length rest)%nat) in *.
  assert (Lb : length (rest ++ pad_bytes q') = (8 * W)%nat) by (rewrite app_length, pad_bytes_length; unfold q'; lia).
  pose proof (absorbed W s2 _ _ Lb H2) as H3.
  rewrite (digest_ok _ _ q H3) by lia. unfold keccak_digest.
  replace (1600 - 2 * (64 * q))%nat with (8 * (8 * W))%nat by (unfold W; lia).
  assert (Pad : pad101 (8 * (8 * W)) (length (message_bits input)) = message_bits (pad_bytes q')).
  { rewrite pad_bits by (unfold q'; lia). unfold pad101. do 2 f_equal. f_equal. rewrite message_bits_length.
    assert (D : exists k, length input = (k * (8 * W) + length rest)%nat).
    { exists nb. unfold nb. rewrite Lr. pose proof (Nat.div_mod_eq (length input) (8 * W)) as D. lia. }
    destruct D as [k D]. rewrite D.
    replace (8 * (k * (8 * W) + length rest) + 2)%nat with (8 * length rest + 2 + k * (8 * (8 * W)))%nat by lia.
    rewrite Nat.mod_add by lia. unfold q'. rewrite (Nat.mod_small (8 * length rest + 2)) by lia.
    rewrite Nat.mod_small by lia. lia. }
  rewrite Pad, <- message_bits_app.
  assert (In : input = firstn (nb * (8 * W)) input ++ rest) by (symmetry; apply firstn_skipn).
  assert (Lf : length (firstn (nb * (8 * W)) input) = (nb * (8 * W))%nat).
  { rewrite firstn_length. apply Nat.min_l. unfold nb. rewrite Nat.mul_comm. apply Nat.mul_div_le. lia. }
  assert (Full : input ++ pad_bytes q' = firstn (nb * (8 * W)) input ++ rest ++ pad_bytes q').
  { rewrite In at 1. rewrite <- app_assoc. reflexivity. }
  assert (Ln : (length (message_bits (input ++ pad_bytes q')) / (8 * (8 * W)) = nb + 1)%nat).
  { rewrite message_bits_length, Full, app_length, Lf, Lb.
    replace (8 * (nb * (8 * W) + 8 * W))%nat with ((nb + 1) * (8 * (8 * W)))%nat by lia. apply Nat.div_mul. lia. }
  rewrite Ln, absorb_all_last.
  assert (Pre : absorb_all nb (8 * (8 * W)) zero_array (message_bits (input ++ pad_bytes q')) =
                absorb_all nb (8 * (8 * W)) zero_array (message_bits input)).
  { rewrite message_bits_app. apply absorb_all_prefix. rewrite message_bits_length.
    unfold nb. pose proof (Nat.mul_div_le (length input) (8 * W) ltac:(lia)). lia. }
  assert (Post : firstn (8 * (8 * W)) (skipn (nb * (8 * (8 * W))) (message_bits (input ++ pad_bytes q'))) =
                 message_bits (rest ++ pad_bytes q')).
  { replace (nb * (8 * (8 * W)))%nat with (8 * (nb * (8 * W)))%nat by lia. rewrite skipn_bits, firstn_bits.
    apply (f_equal message_bits). rewrite Full. rewrite skipn_app, Lf, Nat.sub_diag. rewrite skipn_all2 by lia. cbn [app skipn].
    apply firstn_all2. lia. }
  rewrite Pre, Post. reflexivity.
Qed.
