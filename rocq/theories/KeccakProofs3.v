(** The sponge: absorbing the input, the padding and the digest. *)
From Verif Require Import Base BaseFacts KeccakSpec KeccakModel KeccakProofs KeccakProofs2.

(** The bit of a block of bytes that meets the bit (x, y, z) of the state. *)
Definition bit_of (bs : bytes) (x y : nat) (z : N) : bool :=
  N.testbit (nth (8 * (5 * y + x) + N.to_nat (z / 8)) bs 0) (z mod 8).
Definition plus (A : array) (bs : bytes) : array := fun x y z => xorb (A x y z) (bit_of bs x y z).

Lemma holds_ext s A B : holds s A ->
  (forall x y z, (x < 5)%nat -> (y < 5)%nat -> z < 64 -> A x y z = B x y z) -> holds s B.
Proof.
  intros [L H] E. split; [exact L|]. intros x y X Y. apply (lane_ext _ _ _ (H x y X Y)). intros z Z. apply E; assumption.
Qed.

Lemma nth_message_bits : forall m k j, (j < 8)%nat ->
  nth (8 * k + j) (message_bits m) false = N.testbit (nth k m 0) (N.of_nat j).
Proof.
  induction m as [|b m IH]; intros k j J.
  - change (message_bits []) with (@nil bool). destruct k; cbn [nth]; rewrite N.bits_0; destruct (8 * _ + j)%nat; reflexivity.
  - change (message_bits (b :: m)) with (byte_bits b ++ message_bits m). destruct k as [|k].
    + cbn [nth]. replace (8 * 0 + j)%nat with j by lia. rewrite app_nth1 by exact J.
      unfold byte_bits. do 8 (destruct j as [|j]; [reflexivity|]). lia.
    + rewrite app_nth2 by (cbn [byte_bits map length]; lia). cbn [nth].
      replace (8 * S k + j - length (byte_bits b))%nat with (8 * k + j)%nat by (cbn [byte_bits map length]; lia).
      apply IH, J.
Qed.

Lemma coordinate_bit bs x y z : nth (coordinate x y z) (message_bits bs) false = bit_of bs x y z.
Proof.
  unfold coordinate, bit_of.
  replace (64 * (5 * y + x) + N.to_nat z)%nat with (8 * (8 * (5 * y + x) + N.to_nat (z / 8)) + N.to_nat (z mod 8))%nat by lia.
  rewrite nth_message_bits by lia. rewrite N2Nat.id. reflexivity.
Qed.

Lemma message_bits_length m : length (message_bits m) = (8 * length m)%nat.
Proof. induction m as [|b m IH]; [reflexivity|]. change (length (byte_bits b ++ message_bits m) = (8 * length (b :: m))%nat).
  rewrite app_length, IH. cbn [byte_bits map length]. lia. Qed.
Lemma message_bits_app a b : message_bits (a ++ b) = message_bits a ++ message_bits b.
Proof. unfold message_bits. rewrite map_app, concat_app. reflexivity. Qed.

(** Little-endian words. *)
Lemma le_bit : forall bs z, wf_bytes bs ->
  N.testbit (le_to_N bs) z = N.testbit (nth (N.to_nat (z / 8)) bs 0) (z mod 8).
Proof.
  induction bs as [|b bs IH]; intros z W.
  - cbn [le_to_N]. destruct (N.to_nat (z / 8)); cbn [nth]; rewrite !N.bits_0; reflexivity.
  - apply Forall_inv in W as Wb. apply Forall_inv_tail in W. unfold wf_byte in Wb. cbn [le_to_N].
    assert (E : b + 256 * le_to_N bs = N.lor b (N.shiftl (le_to_N bs) 8)).
    { rewrite N.shiftl_mul_pow2. change (2 ^ 8) with 256. rewrite (N.mul_comm _ 256).
      rewrite N.add_nocarry_lxor, N.lxor_lor.
      - reflexivity.
      - apply N.bits_inj. intros i. rewrite N.land_spec, N.bits_0, N.mul_comm. change 256 with (2 ^ 8).
        destruct (N.lt_ge_cases i 8) as [L|G].
        + rewrite N.mul_pow2_bits_low by exact L. apply andb_false_r.
        + replace (N.testbit b i) with false; [reflexivity|]. symmetry.
          rewrite <- (N.mod_small b (2 ^ 8)) by exact Wb. apply N.mod_pow2_bits_high, G.
      - apply N.bits_inj. intros i. rewrite N.land_spec, N.bits_0, N.mul_comm. change 256 with (2 ^ 8).
        destruct (N.lt_ge_cases i 8) as [L|G].
        + rewrite N.mul_pow2_bits_low by exact L. apply andb_false_r.
        + replace (N.testbit b i) with false; [reflexivity|]. symmetry.
          rewrite <- (N.mod_small b (2 ^ 8)) by exact Wb. apply N.mod_pow2_bits_high, G. }
    rewrite E, N.lor_spec. destruct (N.lt_ge_cases z 8) as [L|G].
    + rewrite N.shiftl_spec_low by exact L. replace (z / 8) with 0 by lia. replace (z mod 8) with z by lia.
      cbn [nth]. apply orb_false_r.
    + rewrite N.shiftl_spec_high by lia.
      replace (N.testbit b z) with false.
      2:{ symmetry. rewrite <- (N.mod_small b (2 ^ 8)) by exact Wb. apply N.mod_pow2_bits_high, G. }
      cbn [orb]. rewrite IH by exact W.
      replace (N.to_nat (z / 8)) with (S (N.to_nat ((z - 8) / 8))) by lia. cbn [nth].
      replace (z mod 8) with ((z - 8) mod 8) by lia. reflexivity.
Qed.

Lemma le_word_lane bs : wf_bytes bs -> (length bs <= 8)%nat ->
  lane (le_to_N bs) (fun z => N.testbit (nth (N.to_nat (z / 8)) bs 0) (z mod 8)).
Proof.
  intros W L. split.
  - apply high_bits. intros z Z. rewrite le_bit by exact W. rewrite nth_overflow by lia. apply N.bits_0.
  - intros z Z. apply le_bit, W.
Qed.

(** [state[i] ^= w]. *)
Lemma xor_at_nth : forall i w s, (i < length s)%nat -> exists s', xor_at i w s = Some s' /\ length s' = length s /\
  forall j, nth j s' 0 = if (j =? i)%nat then nth j s 0 ^^ w else nth j s 0.
Proof.
  induction i as [|i IH]; intros w [|a s] L; try (cbn [length] in L; lia); cbn [xor_at].
  - exists (a ^^ w :: s). repeat split. intros [|j]; reflexivity.
  - destruct (IH w s ltac:(cbn [length] in L; lia)) as (s' & -> & Ls & Hs). exists (a :: s'). split; [reflexivity|].
    split; [cbn [length]; lia|]. intros [|j]; [reflexivity|]. cbn [nth Nat.eqb]. apply Hs.
Qed.

Lemma xor_at_ok i w f s A : (i < 25)%nat -> lane w f -> holds s A ->
  exists s', xor_at i w s = Some s' /\
  holds s' (fun x y z => if (5 * y + x =? i)%nat then xorb (A x y z) (f z) else A x y z).
Proof.
  intros L Lw [Ls H]. destruct (xor_at_nth i w s ltac:(lia)) as (s' & E & Ls' & Hn).
  exists s'. split; [exact E|]. split; [lia|]. intros x y X Y. rewrite Hn.
  destruct (Nat.eqb_spec (5 * y + x) i) as [Ei|D].
  - exact (lane_xor _ _ _ _ (H x y X Y) Lw).
  - exact (H x y X Y).
Qed.

(** One more word of a block. *)
Lemma nth_firstn_lt {X} : forall n i (l : list X) d, (i < n)%nat -> nth i (firstn n l) d = nth i l d.
Proof.
  induction n as [|n IH]; intros i l d L; [lia|]. destruct l as [|a l]; [reflexivity|].
  destruct i; [reflexivity|]. cbn [firstn nth]. apply IH. lia.
Qed.
Lemma nth_firstn_ge {X} : forall n i (l : list X) d, (n <= i)%nat -> nth i (firstn n l) d = d.
Proof. intros n i l d L. apply nth_overflow. rewrite firstn_length. lia. Qed.
Lemma nth_skipn_add {X} : forall n i (l : list X) d, nth i (skipn n l) d = nth (n + i) l d.
Proof.
  induction n as [|n IH]; intros i l d; [reflexivity|]. destruct l as [|a l]; [destruct i; reflexivity|].
  cbn [skipn nth Nat.add]. apply IH.
Qed.

Lemma wf_firstn n bs : wf_bytes bs -> wf_bytes (firstn n bs).
Proof. intros W. rewrite <- (firstn_skipn n bs) in W. apply Forall_app in W. apply W. Qed.
Lemma wf_skipn n bs : wf_bytes bs -> wf_bytes (skipn n bs).
Proof. intros W. rewrite <- (firstn_skipn n bs) in W. apply Forall_app in W. apply W. Qed.

Lemma one_word k bs s A : wf_bytes bs -> (k < 25)%nat -> (8 * k + 8 <= length bs)%nat ->
  holds s (plus A (firstn (8 * k) bs)) ->
  exists w s', load_le (skipn (8 * k) bs) = Some w /\ xor_at k w s = Some s' /\ holds s' (plus A (firstn (8 * (k + 1)) bs)).
Proof.
  intros W K L H. unfold load_le. rewrite skipn_length.
  replace (length bs - 8 * k <? 8)%nat with false by (symmetry; apply Nat.ltb_ge; lia).
  pose proof (le_word_lane (firstn 8 (skipn (8 * k) bs)) (wf_firstn _ _ (wf_skipn _ _ W))
                ltac:(rewrite firstn_length; lia)) as Lw.
  destruct (xor_at_ok k _ _ s _ K Lw H) as (s' & E & H').
  exists (le_to_N (firstn 8 (skipn (8 * k) bs))), s'. split; [reflexivity|]. split; [exact E|].
  apply (holds_ext _ _ _ H'). intros x y z X Y Z. cbv beta. unfold plus, bit_of.
  destruct (Nat.eqb_spec (5 * y + x) k) as [Ek|D].
  - rewrite Ek. rewrite nth_firstn_ge by lia. rewrite N.bits_0, xorb_false_r.
    rewrite (nth_firstn_lt 8) by lia. rewrite nth_skipn_add. rewrite nth_firstn_lt by lia. reflexivity.
  - destruct (Nat.lt_ge_cases (5 * y + x) k) as [Lt|Ge].
    + rewrite !nth_firstn_lt by lia. reflexivity.
    + rewrite !nth_firstn_ge by lia. reflexivity.
Qed.

Lemma plus_nil s A : holds s A -> holds s (plus A []).
Proof.
  intros H. apply (holds_ext _ _ _ H). intros x y z _ _ _. unfold plus, bit_of.
  destruct (8 * (5 * y + x) + N.to_nat (z / 8))%nat; cbn [nth]; rewrite N.bits_0, xorb_false_r; reflexivity.
Qed.

Lemma absorb_words_ok bs A : wf_bytes bs -> forall count k s, (k + count <= 25)%nat -> (8 * (k + count) <= length bs)%nat ->
  holds s (plus A (firstn (8 * k) bs)) ->
  exists s', absorb_words count k s (skipn (8 * k) bs) = Some (s', skipn (8 * (k + count)) bs) /\
             holds s' (plus A (firstn (8 * (k + count)) bs)).
Proof.
  intros W. induction count as [|c IH]; intros k s K L H; cbn [absorb_words].
  - replace (k + 0)%nat with k by lia. exists s. split; [reflexivity|exact H].
  - destruct (one_word k bs s A W ltac:(lia) ltac:(lia) H) as (w & s1 & E1 & E2 & H1). rewrite E1, E2.
    destruct (IH (k + 1)%nat s1 ltac:(lia) ltac:(lia) H1) as (s' & E & H').
    exists s'. replace (k + S c)%nat with (k + 1 + c)%nat by lia. split; [|exact H'].
    rewrite <- E. f_equal. 
    apply nth_ext with 0 0.
    + rewrite !skipn_length. lia.
    + intros n Ln. rewrite !nth_skipn_add. f_equal. lia.
Qed.

(** Blocks. *)
Lemma absorb_all_S n r A P : absorb_all (S n) r A P = absorb_all n r (absorb r A (firstn r P)) (skipn r P).
Proof. reflexivity. Qed.

Lemma absorb_all_last : forall n r A P,
  absorb_all (n + 1) r A P = absorb r (absorb_all n r A P) (firstn r (skipn (n * r) P)).
Proof.
  induction n as [|n IH]; intros r A P; [reflexivity|].
  change (S n + 1)%nat with (S (n + 1)). rewrite !absorb_all_S, IH. do 2 f_equal.
  cbn [Nat.mul]. clear. revert P. induction r as [|r IH]; intros P; [reflexivity|].
  generalize (n * S r)%nat. intros q. destruct P as [|b P]; [cbn [skipn]; destruct q; reflexivity|].
  cbn [skipn Nat.add]. clear. revert P. induction r as [|r IH]; intros P; [reflexivity|].
  destruct P as [|b P]; [cbn [skipn]; destruct q; reflexivity|]. cbn [skipn Nat.add]. apply IH.
Qed.

Lemma absorb_all_prefix : forall n r A P Q, (n * r <= length P)%nat -> absorb_all n r A (P ++ Q) = absorb_all n r A P.
Proof.
  induction n as [|n IH]; intros r A P Q L; [reflexivity|]. rewrite !absorb_all_S. cbn [Nat.mul] in L.
  rewrite firstn_app, skipn_app. replace (r - length P)%nat with 0%nat by lia. cbn [firstn skipn]. rewrite app_nil_r.
  apply IH. rewrite skipn_length. lia.
Qed.

Lemma firstn_bits k m : firstn (8 * k) (message_bits m) = message_bits (firstn k m).
Proof.
  revert k. induction m as [|b m IH]; intros k; [rewrite !firstn_nil; reflexivity|].
  destruct k as [|k]; [reflexivity|]. change (message_bits (b :: m)) with (byte_bits b ++ message_bits m).
  cbn [firstn]. change (message_bits (b :: firstn k m)) with (byte_bits b ++ message_bits (firstn k m)).
  rewrite firstn_app. change (length (byte_bits b)) with 8%nat. replace (8 * S k - 8)%nat with (8 * k)%nat by lia.
  rewrite IH. rewrite firstn_all2 by (cbn [byte_bits map length]; lia). reflexivity.
Qed.
Lemma skipn_bits k m : skipn (8 * k) (message_bits m) = message_bits (skipn k m).
Proof.
  revert k. induction m as [|b m IH]; intros k; [rewrite !skipn_nil; reflexivity|].
  destruct k as [|k]; [reflexivity|]. change (message_bits (b :: m)) with (byte_bits b ++ message_bits m).
  cbn [skipn]. rewrite skipn_app. change (length (byte_bits b)) with 8%nat. replace (8 * S k - 8)%nat with (8 * k)%nat by lia.
  rewrite IH. rewrite skipn_all2 by (cbn [byte_bits map length]; lia). reflexivity.
Qed.

(** A state that has taken a block of [8 W] bytes, and is then permuted, has absorbed that block. *)
Lemma absorbed W s A bs : length bs = (8 * W)%nat -> holds s (plus A bs) ->
  holds (keccakf1600 s) (absorb (8 * (8 * W)) A (message_bits bs)).
Proof.
  intros L H. unfold absorb. apply keccakf_ok. apply (holds_ext _ _ _ H). intros x y z X Y Z. unfold plus.
  f_equal. rewrite coordinate_bit. destruct (Nat.ltb_spec (coordinate x y z) (8 * (8 * W))) as [Lt|Ge]; [reflexivity|].
  unfold bit_of. rewrite nth_overflow; [apply N.bits_0|]. unfold coordinate in Ge. lia.
Qed.

(** The loop that consumes the input, once less than a block is left. *)
Lemma consume_rest W A rest : wf_bytes rest -> (W <= 25)%nat -> (length rest < 8 * W)%nat ->
  forall fuel k s, (8 * k <= length rest)%nat -> (length rest - 8 * k < fuel)%nat ->
  holds s (plus A (firstn (8 * k) rest)) ->
  exists s', consume fuel (8 * W) s k (skipn (8 * k) rest) =
             Some (s', (length rest / 8)%nat, skipn (8 * (length rest / 8)) rest) /\
             holds s' (plus A (firstn (8 * (length rest / 8)) rest)).
Proof.
  intros Wf W25 LR. induction fuel as [|fuel IH]; intros k s K F H; [lia|].
  cbn [consume].
  assert (Lk : length (skipn (8 * k) rest) = (length rest - 8 * k)%nat) by apply skipn_length.
  destruct (Nat.lt_ge_cases (length rest - 8 * k) 8) as [Lt|Ge].
  - assert (Ek : (length rest / 8)%nat = k) by lia. rewrite Ek. exists s. split; [|exact H].
    replace (8 * W <=? length (skipn (8 * k) rest))%nat with false by (symmetry; apply Nat.leb_gt; lia).
    replace (8 <=? length (skipn (8 * k) rest))%nat with false by (symmetry; apply Nat.leb_gt; lia).
    destruct (skipn (8 * k) rest); reflexivity.
  - destruct (one_word k rest s A Wf ltac:(lia) ltac:(lia) H) as (w & s1 & E1 & E2 & H1).
    replace (8 * W <=? length (skipn (8 * k) rest))%nat with false by (symmetry; apply Nat.leb_gt; lia).
    replace (8 <=? length (skipn (8 * k) rest))%nat with true by (symmetry; apply Nat.leb_le; lia).
    rewrite E1, E2.
    destruct (skipn (8 * k) rest) as [|b t] eqn:Es; [cbn [length] in Lk; lia|].
    destruct (IH (k + 1)%nat s1 ltac:(lia) ltac:(lia) H1) as (s' & E & H').
    exists s'. split; [|exact H']. rewrite <- E. f_equal. rewrite <- Es.
    apply nth_ext with 0 0.
    + rewrite !skipn_length. lia.
    + intros n Ln. rewrite !nth_skipn_add. f_equal. lia.
Qed.

(** The whole loop. *)
Lemma consume_ok W : (0 < W <= 25)%nat -> forall fuel input s A, wf_bytes input -> (length input < fuel)%nat -> holds s A ->
  let nb := (length input / (8 * W))%nat in
  let rest := skipn (nb * (8 * W)) input in
  exists s', consume fuel (8 * W) s 0 input =
             Some (s', (length rest / 8)%nat, skipn (8 * (length rest / 8)) rest) /\
             holds s' (plus (absorb_all nb (8 * (8 * W)) A (message_bits input)) (firstn (8 * (length rest / 8)) rest)).
Proof.
  intros W25. induction fuel as [|fuel IH]; intros input s A Wf F H nb rest; [lia|].
  destruct (Nat.lt_ge_cases (length input) (8 * W)) as [Lt|Ge].
  - assert (En : nb = 0%nat) by (apply Nat.div_small; exact Lt).
    subst rest. rewrite En. cbn [Nat.mul skipn absorb_all].
    apply (consume_rest W A input Wf (proj2 W25) Lt (S fuel) 0 s); [lia|lia|]. apply plus_nil, H.
  - cbn [consume].
    replace (8 * W <=? length input)%nat with true by (symmetry; apply Nat.leb_le; lia).
    replace (8 * W / 8)%nat with W by lia.
    destruct (absorb_words_ok input A Wf W 0 s ltac:(lia) ltac:(lia) (plus_nil _ _ H)) as (s1 & E1 & H1).
    change (skipn (8 * 0) input) with input in E1. change (0 + W)%nat with W in E1, H1. rewrite E1.
    assert (Lf : length (firstn (8 * W) input) = (8 * W)%nat) by (rewrite firstn_length; lia).
    pose proof (absorbed W s1 A (firstn (8 * W) input) Lf H1) as H2.
    destruct (IH (skipn (8 * W) input) _ _ (wf_skipn _ _ Wf) ltac:(rewrite skipn_length; lia) H2) as (s' & E & H').
    assert (En : nb = S (length (skipn (8 * W) input) / (8 * W))).
    { unfold nb. rewrite skipn_length. replace (length input) with (length input - 8 * W + 1 * (8 * W))%nat at 1 by lia.
      rewrite Nat.div_add by lia. lia. }
    assert (Er : rest = skipn (length (skipn (8 * W) input) / (8 * W) * (8 * W)) (skipn (8 * W) input)).
    { unfold rest. rewrite En. clear. generalize (length (skipn (8 * W) input) / (8 * W))%nat. intros q.
      apply nth_ext with 0 0.
      - rewrite !skipn_length. cbn [Nat.mul]. generalize (q * (W + (W + (W + (W + (W + (W + (W + (W + 0)))))))))%nat. lia.
      - intros n Ln. rewrite !nth_skipn_add. apply (f_equal (fun i => nth i input 0)). cbn [Nat.mul].
        generalize (q * (W + (W + (W + (W + (W + (W + (W + (W + 0)))))))))%nat. lia. }
    rewrite <- Er in E, H'. exists s'. split.
    + destruct input as [|b t]; [cbn [length] in Ge; lia|]. exact E.
    + rewrite En. cbn [absorb_all]. rewrite firstn_bits, skipn_bits. exact H'.
Qed.
