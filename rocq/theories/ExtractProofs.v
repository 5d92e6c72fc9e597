(** Proofs about the file of hard coded headers. *)
From Coq Require Import Strings.String.
From Verif Require Import Base BaseFacts BlockModel DbTable DbModel IndexModel ExtractModel ExtractSpec.
Open Scope list_scope.
Open Scope N_scope.

(** ** The digits *)
Definition below (n : nat) : list N := map N.of_nat (seq 0 n).
Lemma in_below n x : x < N.of_nat n -> In x (below n).
Proof. intros H. unfold below. apply in_map_iff. exists (N.to_nat x). split; [ lia | ]. apply in_seq. lia. Qed.
Fixpoint beqs (a b : list bool) : bool := match a, b with [], [] => true | x :: a, y :: b => Bool.eqb x y && beqs a b | _, _ => false end.
Lemma beqs_true a : forall b, beqs a b = true -> a = b.
Proof. induction a as [ | x a I ]; intros [ | y b ] H; try discriminate H; [ reflexivity | ]. cbn in H. apply andb_prop in H. destruct H as [H1 H2]. apply Bool.eqb_prop in H1. now rewrite H1, (I b H2). Qed.

Definition dig1 (x : N) := N.shiftr (N.land x 0xfc) 2.
Definition dig2 (x y : N) := N.shiftl (N.land x 3) 4 + N.shiftr (N.land y 0xf0) 4.
Definition dig3 (y z : N) := N.shiftr (N.land z 0xc0) 6 + N.shiftl (N.land y 0x0f) 2.
Definition dig4 (z : N) := N.land z 0x3f.

Lemma tab_digit d : d < 64 -> tab d = digit_char d.
Proof.
  intros H. assert (A : forallb (fun d => tab d =? digit_char d) (below 64) = true) by (vm_compute; reflexivity).
  apply N.eqb_eq. exact (proj1 (forallb_forall _ _) A d (in_below 64 d H)).
Qed.
Lemma digit_inj a b : a < 64 -> b < 64 -> digit_char a = digit_char b -> a = b.
Proof.
  intros Ha Hb. assert (A : forallb (fun a => forallb (fun b => negb (digit_char a =? digit_char b) || (a =? b)) (below 64)) (below 64) = true) by (vm_compute; reflexivity).
  pose proof (proj1 (forallb_forall _ _) (proj1 (forallb_forall _ _) A a (in_below 64 a Ha)) b (in_below 64 b Hb)) as B. cbn beta in B.
  intros E. rewrite E, N.eqb_refl in B. cbn [negb orb] in B. now apply N.eqb_eq in B.
Qed.
Lemma digit_not_pad d : d < 64 -> digit_char d <> 61.
Proof.
  intros H. assert (A : forallb (fun d => negb (digit_char d =? 61)) (below 64) = true) by (vm_compute; reflexivity).
  pose proof (proj1 (forallb_forall _ _) A d (in_below 64 d H)) as B. cbn beta in B. intros E. rewrite E in B. discriminate B.
Qed.
Lemma dig1_spec x : x < 256 -> dig1 x < 64 /\ bits 6 (dig1 x) = firstn 6 (bits 8 x).
Proof.
  intros H. assert (A : forallb (fun x => (dig1 x <? 64) && beqs (bits 6 (dig1 x)) (firstn 6 (bits 8 x))) (below 256) = true) by (vm_compute; reflexivity).
  pose proof (proj1 (forallb_forall _ _) A x (in_below 256 x H)) as B. cbn beta in B. apply andb_prop in B. destruct B as [B C].
  split; [ now apply N.ltb_lt in B | now apply beqs_true in C ].
Qed.
Lemma dig4_spec x : x < 256 -> dig4 x < 64 /\ bits 6 (dig4 x) = skipn 2 (bits 8 x).
Proof.
  intros H. assert (A : forallb (fun x => (dig4 x <? 64) && beqs (bits 6 (dig4 x)) (skipn 2 (bits 8 x))) (below 256) = true) by (vm_compute; reflexivity).
  pose proof (proj1 (forallb_forall _ _) A x (in_below 256 x H)) as B. cbn beta in B. apply andb_prop in B. destruct B as [B C].
  split; [ now apply N.ltb_lt in B | now apply beqs_true in C ].
Qed.
Lemma dig2_spec x y : x < 256 -> y < 256 -> dig2 x y < 64 /\ bits 6 (dig2 x y) = skipn 6 (bits 8 x) ++ firstn 4 (bits 8 y).
Proof.
  intros Hx Hy. assert (A : forallb (fun x => forallb (fun y => (dig2 x y <? 64) && beqs (bits 6 (dig2 x y)) (skipn 6 (bits 8 x) ++ firstn 4 (bits 8 y))) (below 256)) (below 256) = true) by (vm_compute; reflexivity).
  pose proof (proj1 (forallb_forall _ _) (proj1 (forallb_forall _ _) A x (in_below 256 x Hx)) y (in_below 256 y Hy)) as B. cbn beta in B. apply andb_prop in B. destruct B as [B C].
  split; [ now apply N.ltb_lt in B | now apply beqs_true in C ].
Qed.
Lemma dig3_spec x y : x < 256 -> y < 256 -> dig3 x y < 64 /\ bits 6 (dig3 x y) = skipn 4 (bits 8 x) ++ firstn 2 (bits 8 y).
Proof.
  intros Hx Hy. assert (A : forallb (fun x => forallb (fun y => (dig3 x y <? 64) && beqs (bits 6 (dig3 x y)) (skipn 4 (bits 8 x) ++ firstn 2 (bits 8 y))) (below 256)) (below 256) = true) by (vm_compute; reflexivity).
  pose proof (proj1 (forallb_forall _ _) (proj1 (forallb_forall _ _) A x (in_below 256 x Hx)) y (in_below 256 y Hy)) as B. cbn beta in B. apply andb_prop in B. destruct B as [B C].
  split; [ now apply N.ltb_lt in B | now apply beqs_true in C ].
Qed.
Lemma bits8_inj x y : x < 256 -> y < 256 -> bits 8 x = bits 8 y -> x = y.
Proof.
  intros Hx Hy E. apply N.bits_inj. intros i. destruct (N.lt_ge_cases i 8) as [L | L].
  - cbn [bits] in E. injection E as E7 E6 E5 E4 E3 E2 E1 E0.
    assert (i = 0 \/ i = 1 \/ i = 2 \/ i = 3 \/ i = 4 \/ i = 5 \/ i = 6 \/ i = 7) as C by lia.
    destruct C as [-> | [-> | [-> | [-> | [-> | [-> | [-> | ->]]]]]]]; assumption.
  - assert (B : forall z, z < 256 -> N.testbit z i = false).
    { intros z Hz. destruct (N.eq_dec z 0) as [-> | Z]; [ apply N.bits_0 | ]. apply N.bits_above_log2.
      assert (N.log2 z < 8) by (apply N.log2_lt_pow2; [ lia | exact Hz ]). lia. }
    now rewrite !B.
Qed.
Lemma bits_length k n : length (bits k n) = k.
Proof. induction k; cbn; congruence. Qed.

(** ** The encoding *)
(** Induction by groups of three bytes. *)
Lemma three_ind (P : bytes -> Prop) : P [] -> (forall x, P [x]) -> (forall x y, P [x; y]) -> (forall x y z r, P r -> P (x :: y :: z :: r)) -> forall b, P b.
Proof.
  intros H0 H1 H2 H3 b. assert (A : P b /\ (forall x, P (x :: b)) /\ forall x y, P (x :: y :: b)).
  { induction b as [ | z b [I [J K]] ]; [ auto | ]. split; [ exact (J z) | ]. split; [ intros x; exact (K x z) | ]. intros x y. now apply H3. }
  exact (proj1 A).
Qed.
Lemma encoded_size_add n : encoded_size (S (S (S n))) = (4 + encoded_size n)%nat.
Proof. unfold encoded_size. replace (S (S (S n)) + 2)%nat with (1 * 3 + (n + 2))%nat by lia. rewrite Nat.div_add_l by lia. lia. Qed.
Lemma encode64_length b : length (encode64 b) = encoded_size (length b).
Proof. apply (three_ind (fun b => length (encode64 b) = encoded_size (length b))); try reflexivity. intros x y z r I. cbn [encode64 length]. now rewrite encoded_size_add, I. Qed.

(** Padding characters come only at the end. *)
Definition text_of (digits : list N) (p : nat) : bytes := map digit_char digits ++ repeat 61 p.
Lemma encode64_spec b : wf_bytes b -> exists digits p fill, Forall (fun d => d < 64) digits /\ encode64 b = text_of digits p /\ (fill < 6)%nat /\ (p <= 2)%nat
  /\ (b <> [] -> (2 <= length digits)%nat) /\ concat (map (bits 6) digits) = concat (map (bits 8) b) ++ repeat false fill.
Proof.
  apply (three_ind (fun b => wf_bytes b -> exists digits p fill, Forall (fun d => d < 64) digits /\ encode64 b = text_of digits p /\ (fill < 6)%nat /\ (p <= 2)%nat
    /\ (b <> [] -> (2 <= length digits)%nat) /\ concat (map (bits 6) digits) = concat (map (bits 8) b) ++ repeat false fill)).
  - intros _. exists [], 0%nat, 0%nat. repeat split; try constructor; try lia. intros H; exfalso; now apply H.
  - intros x W. apply Forall_cons_iff in W. destruct W as [Wx _]. destruct (dig1_spec x Wx) as [A1 B1]. destruct (dig2_spec x 0 Wx) as [A2 B2]; [ lia | ].
    exists [dig1 x; dig2 x 0], 2%nat, 4%nat. split; [ repeat constructor; assumption | ].
    split; [ cbn [encode64 text_of map app repeat]; unfold b64_first, b64_second; fold (dig1 x) (dig2 x 0); now rewrite !tab_digit by assumption | ].
    split; [ lia | ]. split; [ lia | ]. split; [ cbn; lia | ]. cbn [map concat]. rewrite B1, B2, !app_nil_r.
    rewrite app_assoc, firstn_skipn. reflexivity.
  - intros x y W. apply Forall_cons_iff in W. destruct W as [Wx W]. apply Forall_cons_iff in W. destruct W as [Wy _].
    destruct (dig1_spec x Wx) as [A1 B1]. destruct (dig2_spec x y Wx Wy) as [A2 B2]. destruct (dig3_spec y 0 Wy) as [A3 B3]; [ lia | ].
    exists [dig1 x; dig2 x y; dig3 y 0], 1%nat, 2%nat. split; [ repeat constructor; assumption | ].
    split; [ cbn [encode64 text_of map app repeat]; unfold b64_first, b64_second, b64_third; fold (dig1 x) (dig2 x y) (dig3 y 0); now rewrite !tab_digit by assumption | ].
    split; [ lia | ]. split; [ lia | ]. split; [ cbn; lia | ]. cbn [map concat]. rewrite B1, B2, B3, !app_nil_r.
    rewrite !app_assoc, firstn_skipn, <- !app_assoc. f_equal.
  - intros x y z r I W. apply Forall_cons_iff in W. destruct W as [Wx W]. apply Forall_cons_iff in W. destruct W as [Wy W]. apply Forall_cons_iff in W. destruct W as [Wz W].
    destruct (I W) as [ds [p [f [D [E [F [P [_ C]]]]]]]].
    destruct (dig1_spec x Wx) as [A1 B1]. destruct (dig2_spec x y Wx Wy) as [A2 B2]. destruct (dig3_spec y z Wy Wz) as [A3 B3]. destruct (dig4_spec z Wz) as [A4 B4].
    exists (dig1 x :: dig2 x y :: dig3 y z :: dig4 z :: ds), p, f. split; [ repeat constructor; assumption | ].
    split; [ cbn [encode64]; rewrite E; unfold text_of; cbn [map app]; unfold b64_first, b64_second, b64_third, b64_fourth; fold (dig1 x) (dig2 x y) (dig3 y z) (dig4 z); now rewrite !tab_digit by assumption | ].
    split; [ assumption | ]. split; [ assumption | ]. split; [ cbn; lia | ]. cbn [map concat]. rewrite B1, B2, B3, B4, C.
    rewrite !app_assoc. reflexivity.
Qed.

Lemma nth_text ds p i : nth i (text_of ds p) 0 = if (i <? length ds)%nat then digit_char (nth i ds 0) else if (i <? length ds + p)%nat then 61 else 0.
Proof.
  unfold text_of. destruct (Nat.ltb_spec i (length ds)) as [L | L].
  - rewrite app_nth1 by now rewrite map_length. rewrite (nth_indep _ 0 (digit_char 0)) by now rewrite map_length. apply map_nth.
  - rewrite app_nth2, map_length by now rewrite map_length. destruct (Nat.ltb_spec i (length ds + p)) as [M | M].
    + assert (G : forall q j, (j < q)%nat -> nth j (repeat 61 q) 0 = 61) by (induction q; intros [ | j ] J; cbn; [ lia | lia | reflexivity | apply IHq; lia ]). apply G. lia.
    + apply nth_overflow. rewrite repeat_length. lia.
Qed.
Lemma base64_text b : wf_bytes b -> b <> [] -> exists text, base64encode b = Done text /\ base64_of text b.
Proof.
  intros W NE. destruct (encode64_spec b W) as [ds [p [f [D [E [F [P [L C]]]]]]]]. specialize (L NE). unfold base64encode.
  rewrite <- encode64_length, firstn_app, Nat.sub_diag, firstn_all, firstn_O, app_nil_r. rewrite E.
  assert (LT : length (text_of ds p) = (length ds + p)%nat) by (unfold text_of; now rewrite app_length, map_length, repeat_length). rewrite LT.
  destruct (Nat.ltb_spec (length ds + p) 2) as [X | _]; [ lia | ]. cbv zeta.
  assert (Z : forall i, (i < length ds)%nat -> (digit_char (nth i ds 0) =? 61) = false).
  { intros i I. apply N.eqb_neq, digit_not_pad. exact (proj1 (Forall_forall _ _) D _ (nth_In ds 0 I)). }
  assert (Q : ((if (nth (length ds + p - 1) (text_of ds p) 0%N =? 61)%N then 1 else 0) + (if (nth (length ds + p - 2) (text_of ds p) 0%N =? 61)%N then 1 else 0))%nat = p).
  { rewrite !nth_text. assert (p = 0 \/ p = 1 \/ p = 2)%nat as [-> | [-> | ->]] by lia.
    - rewrite (proj2 (Nat.ltb_lt _ _)) by lia. rewrite (Z (length ds + 0 - 1)%nat) by lia. rewrite (proj2 (Nat.ltb_lt (length ds + 0 - 2) _)) by lia. now rewrite Z by lia.
    - rewrite (proj2 (Nat.ltb_ge (length ds + 1 - 1) _)) by lia. rewrite (proj2 (Nat.ltb_lt _ _)) by lia. rewrite (proj2 (Nat.ltb_lt (length ds + 1 - 2) _)) by lia. now rewrite Z by lia.
    - rewrite (proj2 (Nat.ltb_ge (length ds + 2 - 1) _)) by lia. rewrite (proj2 (Nat.ltb_lt _ (length ds + 2))) by lia. rewrite (proj2 (Nat.ltb_ge (length ds + 2 - 2) _)) by lia. rewrite (proj2 (Nat.ltb_lt _ (length ds + 2))) by lia. reflexivity. }
  rewrite Q. exists (map digit_char ds). split.
  - f_equal. unfold text_of. replace (length ds + p - p)%nat with (length (map digit_char ds)) by (rewrite map_length; lia). rewrite firstn_app, Nat.sub_diag, firstn_all, firstn_O. apply app_nil_r.
  - exists ds, f. auto.
Qed.

(** What the text says is one sequence of bytes. *)
Lemma map_digit_inj ds ds' : Forall (fun d => d < 64) ds -> Forall (fun d => d < 64) ds' -> map digit_char ds = map digit_char ds' -> ds = ds'.
Proof.
  intros H. revert ds'. induction H as [ | d ds Hd H I ]; intros [ | d' ds' ] H' E; try discriminate E; [ reflexivity | ].
  apply Forall_cons_iff in H'. destruct H' as [Hd' H']. injection E as E1 E2. f_equal; [ now apply digit_inj | now apply I ].
Qed.
Lemma concat_bits_length b : length (concat (map (bits 8) b)) = (8 * length b)%nat.
Proof. induction b as [ | x b I ]; [ reflexivity | ]. cbn [map concat]. rewrite app_length, I, bits_length. cbn [length]. lia. Qed.
Lemma app_split {A} (a b c d : list A) : length a = length c -> a ++ b = c ++ d -> a = c /\ b = d.
Proof. revert c. induction a as [ | x a I ]; intros [ | y c ] L E; try discriminate L; [ auto | ]. cbn in L, E. injection E as -> E. injection L as L. destruct (I c L E) as [-> ->]. auto. Qed.
Lemma concat_bits_inj b : forall b', wf_bytes b -> wf_bytes b' -> length b = length b' -> concat (map (bits 8) b) = concat (map (bits 8) b') -> b = b'.
Proof.
  induction b as [ | x b I ]; intros [ | x' b' ] W W' L E; try discriminate L; [ reflexivity | ].
  apply Forall_cons_iff in W, W'. destruct W as [Wx W], W' as [Wx' W']. cbn [map concat] in E.
  apply app_split in E; [ | now rewrite !bits_length ]. destruct E as [E1 E2]. injection L as L. f_equal; [ now apply bits8_inj | now apply I ].
Qed.
Lemma base64_unique text b b' : wf_bytes b -> wf_bytes b' -> base64_of text b -> base64_of text b' -> b = b'.
Proof.
  intros W W' [ds [f [D [T [F C]]]]] [ds' [f' [D' [T' [F' C']]]]]. assert (ds = ds') as <- by (apply map_digit_inj; congruence).
  rewrite C in C'. assert (L : (8 * length b + f = 8 * length b' + f')%nat) by (apply (f_equal (@length bool)) in C'; now rewrite !app_length, !concat_bits_length, !repeat_length in C').
  assert (length b = length b') as LL by lia. apply app_split in C'; [ | rewrite !concat_bits_length; lia ]. now apply concat_bits_inj.
Qed.

(** ** The loop *)
Definition file_after (texts : list bytes) : list_file := fold_left add_header texts new_file.
Lemma file_text l : forall x r, fold_left add_header l (mkFile (array_begin ++ joined [44; 10] (map quoted (x :: r))) false) = mkFile (array_begin ++ joined [44; 10] (map quoted (x :: r ++ l))) false.
Proof.
  induction l as [ | y l I ]; intros x r; [ now rewrite app_nil_r | ]. cbn [fold_left].
  replace (add_header (mkFile (array_begin ++ joined [44; 10] (map quoted (x :: r))) false) y) with (mkFile (array_begin ++ joined [44; 10] (map quoted (x :: r ++ [y]))) false).
  - rewrite I. now rewrite <- app_assoc.
  - unfold add_header. cbn [l_text l_empty]. f_equal. rewrite <- app_assoc. f_equal. clear I l.
    assert (G : forall x r, joined [44; 10] (map quoted (x :: r ++ [y])) = joined [44; 10] (map quoted (x :: r)) ++ [44; 10] ++ quoted y).
    { clear. intros x r. revert x. induction r as [ | z r I ]; intros x; [ reflexivity | ]. change (map quoted (x :: (z :: r) ++ [y])) with (quoted x :: quoted z :: map quoted (r ++ [y])).
      change (map quoted (x :: z :: r)) with (quoted x :: quoted z :: map quoted r).
      change (joined [44; 10] (quoted x :: quoted z :: map quoted (r ++ [y]))) with (quoted x ++ [44; 10] ++ joined [44; 10] (map quoted (z :: r ++ [y]))).
      change (joined [44; 10] (quoted x :: quoted z :: map quoted r)) with (quoted x ++ [44; 10] ++ joined [44; 10] (map quoted (z :: r))). rewrite I, <- !app_assoc. reflexivity. }
    rewrite G. reflexivity.
Qed.
Lemma file_array texts : close_file (file_after texts) = array_text texts.
Proof.
  destruct texts as [ | x r ]; [ reflexivity | ]. unfold file_after. cbn [fold_left].
  replace (add_header new_file x) with (mkFile (array_begin ++ joined [44; 10] (map quoted [x])) false) by reflexivity.
  rewrite file_text. unfold close_file. cbn [l_text l_empty app]. rewrite <- app_assoc. reflexivity.
Qed.

Lemma lookup_hash d n v : header_at d n v -> exists hash, read_canonical_hash d n = Done (Some hash) /\ lookup (d kHeaders) (block_key_hash n hash) = Some v.
Proof.
  intros [hash [L [C H]]]. exists hash. split; [ | exact H ]. unfold read_canonical_hash. rewrite C. unfold blen in L.
  rewrite (proj2 (Nat.ltb_ge _ _)) by lia. rewrite firstn_all2 by lia. reflexivity.
Qed.
Lemma not_canonical d n : ~ canonical_at d n -> read_canonical_hash d n = Done None.
Proof. intros H. unfold read_canonical_hash. destruct (lookup (d kCanonicalHashes) (block_key n)) eqn:E; [ | reflexivity ]. exfalso. apply H. eexists; exact E. Qed.

(** The loop from a height that is a multiple of the step, over blocks all there. *)
Lemma loop_goes d step l : forall fuel i f, (length l <= fuel)%nat -> (i + N.of_nat (length l)) * step < 2 ^ 64 ->
  (forall j rlp, nth_error l j = Some rlp -> (i + N.of_nat j) * step < 2 ^ 64 - 1 /\ wf_bytes rlp /\ rlp <> [] /\ header_at d ((i + N.of_nat j) * step) rlp) ->
  exists texts, Forall2 base64_of texts l /\ extract_loop fuel d step (i * step) f = extract_loop (fuel - length l) d step ((i + N.of_nat (length l)) * step) (fold_left add_header texts f).
Proof.
  induction l as [ | rlp l I ]; intros fuel i f F B H.
  - exists []. split; [ constructor | ]. cbn [length fold_left]. rewrite Nat.sub_0_r. change (N.of_nat 0) with 0. now rewrite N.add_0_r.
  - destruct fuel as [ | fuel ]; [ cbn in F; lia | ]. destruct (H 0%nat rlp eq_refl) as [LT [W [NE HD]]]. change (N.of_nat 0) with 0 in LT, HD. rewrite N.add_0_r in LT, HD.
    destruct (base64_text rlp W NE) as [t [T S]]. cbn [length] in B, F.
    destruct (I fuel (i + 1) (add_header f t)) as [ts [A E]]; [ lia | replace (i + 1 + N.of_nat (length l)) with (i + N.of_nat (Datatypes.S (length l))) by lia; exact B | | ].
    { intros j r J. replace (i + 1 + N.of_nat j) with (i + N.of_nat (Datatypes.S j)) by lia. now apply H. }
    exists (t :: ts). split; [ now constructor | ]. cbn [extract_loop fold_left length]. rewrite (proj2 (N.ltb_lt _ _) LT).
    destruct (lookup_hash d _ _ HD) as [hash [R K]]. rewrite R, K, T.
    assert (S2 : (i * step + step) mod 2 ^ 64 = (i + 1) * step) by (rewrite N.mod_small; nia).
    rewrite S2, E. replace (i + 1 + N.of_nat (length l)) with (i + N.of_nat (Datatypes.S (length l))) by lia. reflexivity.
Qed.
