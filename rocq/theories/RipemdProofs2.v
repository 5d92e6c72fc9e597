From Verif Require Import Base BaseFacts KeccakModel Sha256Spec Sha256Model Sha256Proofs RipemdModel RipemdSpec RipemdProofs.

(** ** Little-endian words. *)
Lemma le_four a b c d : le_to_N [a; b; c; d] = be_to_N [d; c; b; a].
Proof. unfold be_to_N. cbn [le_to_N fold_left]. lia. Qed.
Lemma le_words_length : forall n b, length b = (4 * n)%nat -> length (le_words b) = n.
Proof.
  induction n as [|n IH]; intros b L; [destruct b; [reflexivity|discriminate L]|]. destruct b as [|p0 [|p1 [|p2 [|p3 r]]]]; cbn [length] in L; try lia.
  cbn [le_words length]. rewrite (IH r) by lia. reflexivity.
Qed.
Lemma le_words_app : forall n a b, length a = (4 * n)%nat -> le_words (a ++ b) = le_words a ++ le_words b.
Proof.
  induction n as [|n IH]; intros a b L; [destruct a; [reflexivity|discriminate L]|]. destruct a as [|p0 [|p1 [|p2 [|p3 r]]]]; cbn [length] in L; try lia.
  cbn [app le_words]. rewrite (IH r b) by lia. reflexivity.
Qed.
Lemma load_words_ok : forall count ptr, (4 * count <= length ptr)%nat ->
  load_words count ptr = Some (le_words (firstn (4 * count) ptr), skipn (4 * count) ptr).
Proof.
  induction count as [|c IH]; intros ptr L; [reflexivity|]. destruct ptr as [|p0 [|p1 [|p2 [|p3 r]]]]; cbn [length] in L; try lia.
  replace (4 * S c)%nat with (S (S (S (S (4 * c))))) by lia. cbn [load_words firstn skipn le_words]. rewrite IH by lia. rewrite le_four. reflexivity.
Qed.

(** A byte put where a zero was. *)
Lemma disjoint lo q b n m : lo < 2 ^ n -> b < 2 ^ m -> N.lxor (lo + 2 ^ (n + m) * q) (N.shiftl b n) = lo + 2 ^ n * b + 2 ^ (n + m) * q.
Proof.
  intros Ll Lb. rewrite N.shiftl_mul_pow2.
  assert (Lo : lo < 2 ^ (n + m)) by (eapply N.lt_le_trans; [exact Ll|]; apply N.pow_le_mono_r; lia).
  assert (D : N.land (lo + 2 ^ (n + m) * q) (b * 2 ^ n) = 0).
  { apply N.bits_inj_iff. intros i. rewrite N.land_spec, N.bits_0.
    replace (lo + 2 ^ (n + m) * q) with (N.lor (q * 2 ^ (n + m)) lo) by (rewrite lor_add by exact Lo; lia). rewrite N.lor_spec.
    destruct (N.lt_ge_cases i n) as [I1|I1]; [rewrite (N.mul_pow2_bits_low b) by exact I1; apply andb_false_r|].
    destruct (N.lt_ge_cases i (n + m)) as [I2|I2].
    - rewrite N.mul_pow2_bits_low by exact I2. cbn [orb].
      assert (Z : N.testbit lo i = false); [|rewrite Z; reflexivity].
      destruct (N.eq_dec lo 0) as [->|NZ]; [apply N.bits_0|]. apply N.bits_above_log2. eapply N.lt_le_trans; [apply N.neq_0_lt_0 in NZ; exact (proj1 (N.log2_lt_pow2 _ _ NZ) Ll)|exact I1].
    - rewrite (N.mul_pow2_bits_high b) by exact I1.
      assert (Z : N.testbit b (i - n) = false); [|rewrite Z; apply andb_false_r].
      destruct (N.eq_dec b 0) as [->|NZ]; [apply N.bits_0|]. apply N.bits_above_log2. eapply N.lt_le_trans; [apply N.neq_0_lt_0 in NZ; exact (proj1 (N.log2_lt_pow2 _ _ NZ) Lb)|]. clear - I2. lia. }
  rewrite <- N.add_nocarry_lxor by exact D. lia.
Qed.

Lemma put_one : forall q l i b, length l = (4 * q)%nat -> (i < length l)%nat -> wf_bytes l -> b < 256 -> nth i l 0 = 0 ->
  upd (i / 4) (N.lxor (nth (i / 4) (le_words l) 0) (N.shiftl b (8 * N.of_nat (i mod 4)))) (le_words l) = le_words (upd i b l).
Proof.
  induction q as [|q IH]; intros l i b L I1 W B Z; [lia|]. destruct l as [|p0 [|p1 [|p2 [|p3 r]]]]; cbn [length] in L; try lia.
  apply wf_cons in W; destruct W as [W0 W]; apply wf_cons in W; destruct W as [W1 W]; apply wf_cons in W; destruct W as [W2 W];
    apply wf_cons in W; destruct W as [W3 W].
  destruct i as [|[|[|[|i]]]].
  - cbn [nth] in Z. subst p0. cbn [Nat.div Nat.divmod fst Nat.modulo Nat.sub snd upd le_words nth]. f_equal. rewrite <- !le_four. cbn [le_to_N].
    pose proof (disjoint 0 (p1 + 256 * (p2 + 256 * (p3 + 256 * 0))) b 0 8 ltac:(reflexivity) B) as D.
    change (8 * N.of_nat 0) with 0. change (2 ^ (0 + 8)) with 256 in D. change (2 ^ 0) with 1 in D. rewrite D. lia.
  - cbn [nth] in Z. subst p1. cbn [Nat.div Nat.divmod fst Nat.modulo Nat.sub snd upd le_words nth]. f_equal. rewrite <- !le_four. cbn [le_to_N].
    pose proof (disjoint p0 (p2 + 256 * (p3 + 256 * 0)) b 8 8 W0 B) as D.
    change (8 * N.of_nat 1) with 8. change (2 ^ (8 + 8)) with 65536 in D. change (2 ^ 8) with 256 in D.
    replace (p0 + 256 * (0 + 256 * (p2 + 256 * (p3 + 256 * 0)))) with (p0 + 65536 * (p2 + 256 * (p3 + 256 * 0))) by lia. rewrite D. lia.
  - cbn [nth] in Z. subst p2. cbn [Nat.div Nat.divmod fst Nat.modulo Nat.sub snd upd le_words nth]. f_equal. rewrite <- !le_four. cbn [le_to_N].
    pose proof (disjoint (p0 + 256 * p1) (p3 + 256 * 0) b 16 8 ltac:(change (2 ^ 16) with 65536; lia) B) as D.
    change (8 * N.of_nat 2) with 16. change (2 ^ (16 + 8)) with 16777216 in D. change (2 ^ 16) with 65536 in D.
    replace (p0 + 256 * (p1 + 256 * (0 + 256 * (p3 + 256 * 0)))) with (p0 + 256 * p1 + 16777216 * (p3 + 256 * 0)) by lia. rewrite D. lia.
  - cbn [nth] in Z. subst p3. cbn [Nat.div Nat.divmod fst Nat.modulo Nat.sub snd upd le_words nth]. f_equal. rewrite <- !le_four. cbn [le_to_N].
    pose proof (disjoint (p0 + 256 * (p1 + 256 * p2)) 0 b 24 8 ltac:(change (2 ^ 24) with 16777216; lia) B) as D.
    change (8 * N.of_nat 3) with 24. change (2 ^ (24 + 8)) with 4294967296 in D. change (2 ^ 24) with 16777216 in D.
    replace (p0 + 256 * (p1 + 256 * (p2 + 256 * (0 + 256 * 0)))) with (p0 + 256 * (p1 + 256 * p2) + 4294967296 * 0) by lia. rewrite D. lia.
  - replace (S (S (S (S i))) / 4)%nat with (S (i / 4)) by (replace (S (S (S (S i)))) with (i + 1 * 4)%nat by lia; rewrite Nat.div_add by discriminate; lia).
    replace (S (S (S (S i))) mod 4)%nat with (i mod 4)%nat by (replace (S (S (S (S i)))) with (i + 1 * 4)%nat by lia; rewrite Nat.mod_add by discriminate; reflexivity).
    cbn [le_words nth upd]. f_equal. apply IH; [lia|cbn [length] in I1; lia|exact W|exact B|exact Z].
Qed.

Lemma upd_app : forall i (x : N) a b, i = length a -> upd i x (a ++ 0 :: b) = a ++ x :: b.
Proof. intros i x a b ->. induction a as [|y a IH]; cbn; [reflexivity|]. rewrite IH. reflexivity. Qed.
Lemma zeros_S n : zeros (S n) = 0 :: zeros n.
Proof. reflexivity. Qed.

Lemma put_bytes_ok : forall count i str done, (i + count <= 63)%nat -> (count <= length str)%nat -> wf_bytes str -> wf_bytes done -> length done = i ->
  put_bytes count i str (le_words (done ++ zeros (64 - i))) = Some (le_words (done ++ firstn count str ++ zeros (64 - i - count))).
Proof.
  induction count as [|c IH]; intros i str done Li Ls Ws Wd Ld; cbn [put_bytes].
  - cbn [firstn app]. rewrite Nat.sub_0_r. reflexivity.
  - destruct str as [|b r]; [cbn [length] in Ls; lia|]. apply wf_cons in Ws. destruct Ws as [Wb Wr].
    rewrite (put_one 16 (done ++ zeros (64 - i)) i b).
    + replace (64 - i)%nat with (S (63 - i)) by lia. rewrite zeros_S, upd_app by (symmetry; exact Ld).
      replace (done ++ b :: zeros (63 - i)) with ((done ++ [b]) ++ zeros (64 - S i)) by (rewrite <- app_assoc; replace (64 - S i)%nat with (63 - i)%nat by lia; reflexivity).
      rewrite IH; [|lia|cbn [length] in Ls; lia|exact Wr|apply wf_app; split; [exact Wd|constructor; [exact Wb|constructor]]|rewrite app_length; cbn [length]; lia].
      cbn [firstn]. rewrite <- app_assoc. cbn [app]. replace (S (63 - i) - S c)%nat with (64 - S i - c)%nat by lia. reflexivity.
    + unfold zeros. rewrite app_length, repeat_length. lia.
    + unfold zeros. rewrite app_length, repeat_length. lia.
    + apply wf_app. split; [exact Wd|apply wf_zeros].
    + exact Wb.
    + rewrite app_nth2 by lia. rewrite Ld, Nat.sub_diag. replace (64 - i)%nat with (S (63 - i)) by lia. reflexivity.
Qed.

Lemma zero_words : repeat 0 16 = le_words (zeros 64).
Proof. reflexivity. Qed.

(** ** The end of the message. *)
Definition rmd_pad (len : nat) (T : N) : bytes := [128] ++ zeros (pad_zeros len) ++ le_fixed 8 (8 * T).
Lemma rmd_blocks_step h b : (64 <= length b)%nat ->
  rmd_blocks (length b / 64) h b = rmd_blocks (length (skipn 64 b) / 64) (rmd_compress h (le_words (firstn 64 b))) (skipn 64 b).
Proof.
  intros L. rewrite skipn_length. replace (length b / 64)%nat with (S ((length b - 64) / 64)); [reflexivity|].
  replace (length b) with (1 * 64 + (length b - 64))%nat at 2 by lia. rewrite Nat.div_add_l by discriminate. reflexivity.
Qed.
Lemma rmd_blocks_one h b : length b = 64%nat -> rmd_blocks (length b / 64) h b = rmd_compress h (le_words b).
Proof.
  intros L. rewrite rmd_blocks_step by lia. rewrite skipn_length, L. cbn [Nat.sub]. change (0 / 64)%nat with 0%nat. cbn [rmd_blocks].
  rewrite firstn_all2 by lia. reflexivity.
Qed.
Lemma le_fixed_length n x : length (le_fixed n x) = n.
Proof. unfold le_fixed. rewrite rev_length. apply be_fixed_length. Qed.

Lemma length_words T : T < 2 ^ 32 ->
  le_words (le_fixed 8 (8 * T)) = [N.shiftl T 3 mod 2 ^ 32; N.lor (N.shiftr T 29) (N.shiftl 0 3 mod 2 ^ 32)].
Proof.
  intros L. change (N.shiftl 0 3 mod 2 ^ 32) with 0. rewrite N.lor_0_r, N.shiftl_mul_pow2, N.shiftr_div_pow2. unfold le_fixed. cbn [be_fixed app rev le_words].
  assert (P : forall n, be_to_N [n / 256 / 256 / 256 mod 256; n / 256 / 256 mod 256; n / 256 mod 256; n mod 256] = n mod 2 ^ 32).
  { intros n. change [n / 256 / 256 / 256 mod 256; n / 256 / 256 mod 256; n / 256 mod 256; n mod 256] with (be_fixed 4 n). apply be_to_N_be_fixed. }
  set (n := 8 * T). rewrite P. rewrite (P (n / 256 / 256 / 256 / 256)). replace (T * 2 ^ 3) with n by (unfold n; change (2 ^ 3) with 8; lia).
  rewrite !N.div_div by discriminate. change (256 * (256 * (256 * 256))) with (8 * 2 ^ 29). unfold n at 2. rewrite N.div_mul_cancel_l by discriminate.
  rewrite (N.mod_small (T / 2 ^ 29)); [reflexivity|]. apply N.le_lt_trans with T; [|exact L]. apply N.div_le_upper_bound; [discriminate|].
  change (2 ^ 29) with 536870912. lia.
Qed.

Lemma put_length a T : length a = 56%nat -> T < 2 ^ 32 ->
  upd 15 (N.lor (N.shiftr T 29) (N.shiftl 0 3 mod 2 ^ 32)) (upd 14 (N.shiftl T 3 mod 2 ^ 32) (le_words (a ++ zeros 8))) = le_words (a ++ le_fixed 8 (8 * T)).
Proof.
  intros L LT. rewrite !(le_words_app 14) by exact L. rewrite (length_words T LT). change (le_words (zeros 8)) with [0; 0].
  generalize (N.shiftl T 3 mod 2 ^ 32) (N.lor (N.shiftr T 29) (N.shiftl 0 3 mod 2 ^ 32)). intros x y.
  pose proof (le_words_length 14 a L) as Lw. destruct (le_words a) as [|w0 [|w1 [|w2 [|w3 [|w4 [|w5 [|w6 [|w7 [|w8 [|w9 [|w10 [|w11 [|w12 [|w13 [|]]]]]]]]]]]]]]];
    try discriminate Lw. reflexivity.
Qed.

Lemma land_pow x k : N.land x (N.ones k) = x mod 2 ^ k.
Proof. apply N.land_ones. Qed.

Lemma finish_ok T h rest : T < 2 ^ 32 -> wf_bytes rest -> (length rest < 64)%nat -> T mod 64 = blen rest -> chain_w h ->
  rmd160_finish (of_chain h) rest T 0 = Some (of_chain (rmd_blocks (length (rest ++ rmd_pad (length rest) T) / 64) h (rest ++ rmd_pad (length rest) T))).
Proof.
  intros LT W L E Wh. unfold rmd160_finish. change 63 with (N.ones 6). change 15 with (N.ones 4). change (N.land T 3) with (N.land T (N.ones 2)).
  rewrite !land_pow. change (2 ^ 6) with 64. change (2 ^ 4) with 16. change (2 ^ 2) with 4. rewrite E, blen_to_nat, zero_words.
  change (le_words (zeros 64)) with (le_words ([] ++ zeros (64 - 0))). rewrite put_bytes_ok; [|lia|lia|exact W|constructor|reflexivity].
  cbn [app]. rewrite firstn_all, Nat.sub_0_r. rewrite N.shiftr_div_pow2. change (2 ^ 2) with 4.
  set (n := length rest) in *. assert (En : blen rest = N.of_nat n) by reflexivity. rewrite En in E.
  assert (At : N.to_nat (T / 4 mod 16) = (n / 4)%nat /\ T mod 4 = N.of_nat (n mod 4)).
  { pose proof (Nat.div_mod n 4 ltac:(discriminate)). pose proof (Nat.mod_upper_bound n 4 ltac:(discriminate)). clear En LT. split; lia. }
  destruct At as [-> ->].
  replace (N.shiftl 1 (8 * N.of_nat (n mod 4) + 7)) with (N.shiftl 128 (8 * N.of_nat (n mod 4))).
  2: { rewrite N.add_comm, <- N.shiftl_shiftl. reflexivity. }
  assert (L1 : length (rest ++ zeros (64 - n)) = 64%nat) by (unfold zeros; rewrite app_length, repeat_length; unfold n; unfold n in *; lia).
  rewrite (put_one 16 (rest ++ zeros (64 - n)) n 128); cycle 1.
  { rewrite L1. reflexivity. } { rewrite L1. exact L. } { apply wf_app. split; [exact W|apply wf_zeros]. } { reflexivity. }
  { rewrite app_nth2 by (unfold n; lia). replace (n - length rest)%nat with 0%nat by (unfold n; lia). replace (64 - n)%nat with (S (63 - n)) by lia. reflexivity. }
  replace (64 - n)%nat with (S (63 - n)) by lia. rewrite zeros_S, upd_app by reflexivity.
  assert (Lp : length (rest ++ rmd_pad n T) = (n + 9 + pad_zeros n)%nat).
  { unfold rmd_pad. rewrite !app_length, le_fixed_length. unfold zeros. rewrite repeat_length. cbn [length]. fold n. lia. }
  assert (Sm : (n mod 64 = n)%nat) by (apply Nat.mod_small; exact L).
  rewrite En. destruct (N.ltb_spec 55 (N.of_nat n)) as [G|G].
  - assert (Ez : pad_zeros n = (63 - n + 56)%nat) by (unfold pad_zeros; rewrite Sm; rewrite Nat.mod_small by lia; lia).
    assert (Es : rest ++ rmd_pad n T = (rest ++ 128 :: zeros (63 - n)) ++ (zeros 56 ++ le_fixed 8 (8 * T))).
    { unfold rmd_pad. rewrite Ez. unfold zeros. rewrite repeat_app. rewrite <- !app_assoc. cbn [app]. reflexivity. }
    assert (L64 : length (rest ++ 128 :: zeros (63 - n)) = 64%nat) by (unfold zeros; rewrite app_length; cbn [length]; rewrite repeat_length; fold n; lia).
    rewrite Es. rewrite rmd_blocks_step by (rewrite app_length; lia).
    rewrite firstn_app_exact by (symmetry; exact L64). rewrite skipn_app_exact by (symmetry; exact L64).
    rewrite rmd_blocks_one by (rewrite app_length, le_fixed_length; reflexivity).
    destruct (compress_ok h (le_words (rest ++ 128 :: zeros (63 - n))) Wh) as [-> Wc].
    change (zeros 64) with (zeros 56 ++ zeros 8); change (repeat 0 16) with (le_words (zeros 56 ++ zeros 8)). rewrite put_length by (try reflexivity; exact LT).
    destruct (compress_ok _ (le_words (zeros 56 ++ le_fixed 8 (8 * T))) Wc) as [-> _]. reflexivity.
  - assert (Ez : pad_zeros n = (55 - n)%nat).
    { unfold pad_zeros. rewrite Sm. replace (119 - n)%nat with ((55 - n) + 1 * 64)%nat by lia. rewrite Nat.mod_add by discriminate. apply Nat.mod_small. lia. }
    assert (Es : rest ++ rmd_pad n T = (rest ++ [128] ++ zeros (55 - n)) ++ le_fixed 8 (8 * T)).
    { unfold rmd_pad. rewrite Ez, <- !app_assoc. reflexivity. }
    assert (Ex : rest ++ 128 :: zeros (63 - n) = (rest ++ [128] ++ zeros (55 - n)) ++ zeros 8).
    { rewrite <- !app_assoc. cbn [app]. do 2 f_equal. unfold zeros. rewrite <- repeat_app. f_equal. lia. }
    rewrite Ex. rewrite put_length; [|unfold zeros; rewrite !app_length, repeat_length; cbn [length]; fold n; lia|exact LT].
    rewrite rmd_blocks_one by (rewrite Lp, Ez; lia). rewrite Es.
    destruct (compress_ok h (le_words ((rest ++ [128] ++ zeros (55 - n)) ++ le_fixed 8 (8 * T))) Wh) as [-> _]. reflexivity.
Qed.

Lemma whole_ok T : forall fuel m h, wf_bytes m -> (length m / 64 + 1 <= fuel)%nat -> chain_w h ->
  exists h' rest, whole_blocks fuel (length m) m (of_chain h) = Some (of_chain h', rest) /\ chain_w h' /\ wf_bytes rest /\ (length rest < 64)%nat /\
    (length rest = length m mod 64)%nat /\
    rmd_blocks (length (m ++ rmd_pad (length m) T) / 64) h (m ++ rmd_pad (length m) T) =
    rmd_blocks (length (rest ++ rmd_pad (length rest) T) / 64) h' (rest ++ rmd_pad (length rest) T).
Proof.
  induction fuel as [|n IH]; intros m h W Fu Wh; [lia|]. cbn [whole_blocks].
  destruct (Nat.leb_spec 64 (length m)) as [G|G].
  - rewrite (load_words_ok 16) by lia. change (4 * 16)%nat with 64%nat. cbv beta iota.
    destruct (compress_ok h (le_words (firstn 64 m)) Wh) as [-> Wc].
    replace (length m - 64)%nat with (length (skipn 64 m)) by apply skipn_length.
    assert (E : (length m / 64 = S ((length m - 64) / 64))%nat).
    { replace (length m) with (1 * 64 + (length m - 64))%nat at 1 by lia. rewrite Nat.div_add_l by discriminate. reflexivity. }
    assert (Em : (length m mod 64 = (length m - 64) mod 64)%nat).
    { replace (length m) with (length m - 64 + 1 * 64)%nat at 1 by lia. apply Nat.mod_add. discriminate. }
    destruct (IH (skipn 64 m) (rmd_compress h (le_words (firstn 64 m))) ltac:(apply wf_skipn, W) ltac:(rewrite skipn_length; lia) Wc)
      as (h' & rest & Ew & Wh' & Wr & Lr & Lm & Eb).
    exists h', rest. split; [exact Ew|]. split; [exact Wh'|]. split; [exact Wr|]. split; [exact Lr|].
    split; [rewrite Lm, skipn_length, Em; reflexivity|]. rewrite <- Eb.
    rewrite (rmd_blocks_step h (m ++ _)) by (rewrite app_length; lia). rewrite (firstn_app 64), (skipn_app 64). replace (64 - length m)%nat with 0%nat by lia.
    rewrite firstn_O, skipn_O, app_nil_r.
    assert (Ep : rmd_pad (length (skipn 64 m)) T = rmd_pad (length m) T) by (unfold rmd_pad, pad_zeros; rewrite skipn_length, <- Em; reflexivity).
    rewrite Ep. reflexivity.
  - exists h, m. split; [reflexivity|]. split; [exact Wh|]. split; [exact W|]. split; [exact G|]. split; [symmetry; apply Nat.mod_small; exact G|reflexivity].
Qed.

Lemma store_little_ok x : store_little x = le_fixed 4 x.
Proof. unfold store_little, le_fixed. rewrite !N.shiftr_div_pow2. cbn [be_fixed app rev]. rewrite !N.div_div by discriminate. reflexivity. Qed.

Lemma ripemd_general m : wf_bytes m -> exists h, calculate_ripemd_160 m = Some (concat (map (le_fixed 4) (of_chain h))) /\
  h = rmd_blocks (length (m ++ rmd_pad (length m) (blen m mod 2 ^ 32)) / 64) rmd_initial (m ++ rmd_pad (length m) (blen m mod 2 ^ 32)).
Proof.
  intros W. unfold calculate_ripemd_160. change rmd160_init with (of_chain rmd_initial).
  destruct (whole_ok (blen m mod 2 ^ 32) (length m / 64 + 1) m rmd_initial W ltac:(lia)) as (h' & rest & -> & Wh & Wr & Lr & Lm & ->).
  { repeat (apply Forall_cons; [reflexivity|]). constructor. }
  rewrite finish_ok; try assumption.
  - eexists. split; [|reflexivity]. f_equal. f_equal. apply map_ext. exact store_little_ok.
  - apply N.mod_lt. discriminate.
  - unfold blen. rewrite Lm. change (2 ^ 32) with 4294967296. clear.
    pose proof (Nat.div_mod (length m) 64 ltac:(discriminate)). pose proof (Nat.mod_upper_bound (length m) 64 ltac:(discriminate)). lia.
Qed.
Lemma ripemd_ok m : wf_bytes m -> blen m < 2 ^ 32 -> calculate_ripemd_160 m = Some (ripemd160 m).
Proof.
  intros W L. destruct (ripemd_general m W) as (h & -> & ->). rewrite N.mod_small by exact L. reflexivity.
Qed.
