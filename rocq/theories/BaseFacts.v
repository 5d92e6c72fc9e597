(** Facts about [Base]. *)
From Verif Require Import Base.

Lemma wf_bytesb_spec bs : wf_bytesb bs = true <-> wf_bytes bs.
Proof.
  unfold wf_bytesb, wf_bytes. rewrite forallb_forall, Forall_forall.
  split; intros H x Hx; specialize (H x Hx); unfold wf_byte in *; lia.
Qed.

Lemma wf_nil : wf_bytes [].
Proof. constructor. Qed.

Lemma wf_app a b : wf_bytes (a ++ b) <-> wf_bytes a /\ wf_bytes b.
Proof. unfold wf_bytes. apply Forall_app. Qed.

Lemma wf_cons x b : wf_bytes (x :: b) <-> x < 256 /\ wf_bytes b.
Proof. unfold wf_bytes, wf_byte. rewrite Forall_cons_iff. reflexivity. Qed.

Lemma wf_firstn n b : wf_bytes b -> wf_bytes (firstn n b).
Proof. intros H. rewrite <- (firstn_skipn n b) in H. apply wf_app in H. tauto. Qed.

Lemma wf_skipn n b : wf_bytes b -> wf_bytes (skipn n b).
Proof. intros H. rewrite <- (firstn_skipn n b) in H. apply wf_app in H. tauto. Qed.

Lemma wf_zeros n : wf_bytes (zeros n).
Proof. unfold zeros. induction n; cbn [repeat]; constructor; auto. red; lia. Qed.

Lemma blen_app a b : blen (a ++ b) = blen a + blen b.
Proof. unfold blen. rewrite app_length. lia. Qed.

Lemma blen_cons x b : blen (x :: b) = 1 + blen b.
Proof. unfold blen. cbn [length]. lia. Qed.

Lemma blen_nil : blen [] = 0.
Proof. reflexivity. Qed.

Lemma be_to_N_app_acc a acc :
  fold_left (fun acc b => acc * 256 + b) a acc = acc * 256 ^ blen a + be_to_N a.
Proof.
  unfold be_to_N. revert acc. induction a as [|x a IH]; intros acc; cbn [fold_left].
  - rewrite blen_nil. change (256 ^ 0) with 1. lia.
  - rewrite IH. rewrite (IH (0 * 256 + x)). rewrite blen_cons, N.pow_add_r.
    change (256 ^ 1) with 256. lia.
Qed.

Lemma be_to_N_app a b : be_to_N (a ++ b) = be_to_N a * 256 ^ blen b + be_to_N b.
Proof. unfold be_to_N at 1. rewrite fold_left_app. apply be_to_N_app_acc. Qed.

Lemma be_to_N_cons x b : be_to_N (x :: b) = x * 256 ^ blen b + be_to_N b.
Proof. change (x :: b) with ([x] ++ b). rewrite be_to_N_app. f_equal. Qed.

Lemma be_to_N_nil : be_to_N [] = 0.
Proof. reflexivity. Qed.

Lemma be_to_N_snoc b x : be_to_N (b ++ [x]) = be_to_N b * 256 + x.
Proof. unfold be_to_N. rewrite fold_left_app. reflexivity. Qed.

Lemma pow256_pos k : 0 < 256 ^ k.
Proof. apply N.neq_0_lt_0, N.pow_nonzero. lia. Qed.

Lemma be_to_N_bound b : wf_bytes b -> be_to_N b < 256 ^ blen b.
Proof.
  induction b as [|x b IH]; intros H.
  - rewrite be_to_N_nil, blen_nil. reflexivity.
  - apply wf_cons in H as [Hx Hb]. specialize (IH Hb).
    rewrite be_to_N_cons, blen_cons, N.pow_add_r. change (256 ^ 1) with 256.
    pose proof (pow256_pos (blen b)). nia.
Qed.

Lemma be_fixed_length k n : length (be_fixed k n) = k.
Proof.
  revert n; induction k as [|k IH]; intros n; cbn [be_fixed]; [reflexivity|].
  rewrite app_length, IH. cbn. lia.
Qed.

Lemma be_fixed_blen k n : blen (be_fixed k n) = N.of_nat k.
Proof. unfold blen. now rewrite be_fixed_length. Qed.

Lemma be_fixed_wf k n : wf_bytes (be_fixed k n).
Proof.
  revert n; induction k as [|k IH]; intros n; cbn [be_fixed]; [constructor|].
  apply wf_app; split; [apply IH|]. apply wf_cons; split; [|constructor].
  apply N.mod_lt. lia.
Qed.

Lemma be_to_N_be_fixed k n : be_to_N (be_fixed k n) = n mod 256 ^ N.of_nat k.
Proof.
  revert n; induction k as [|k IH]; intros n; cbn [be_fixed].
  - change (N.of_nat 0) with 0. change (256 ^ 0) with 1. rewrite N.mod_1_r. reflexivity.
  - rewrite be_to_N_snoc, IH. replace (N.of_nat (S k)) with (N.succ (N.of_nat k)) by lia.
    rewrite N.pow_succ_r'. rewrite N.mod_mul_r; [lia | lia | apply N.pow_nonzero; lia].
Qed.

Lemma be_to_N_be_fixed_small k n : n < 256 ^ N.of_nat k -> be_to_N (be_fixed k n) = n.
Proof. intros H. rewrite be_to_N_be_fixed. now apply N.mod_small. Qed.

Lemma be_fixed_be_to_N b : wf_bytes b -> be_fixed (length b) (be_to_N b) = b.
Proof.
  induction b as [|x b IH] using rev_ind; intros H; [reflexivity|].
  apply wf_app in H as [Hb Hx]. apply wf_cons in Hx as [Hx _].
  rewrite app_length. cbn [length]. replace (length b + 1)%nat with (S (length b)) by lia.
  cbn [be_fixed]. rewrite be_to_N_snoc.
  replace ((be_to_N b * 256 + x) / 256) with (be_to_N b) by lia.
  replace ((be_to_N b * 256 + x) mod 256) with x by lia.
  now rewrite IH.
Qed.

Lemma be_fixed_inj k a b : a < 256 ^ N.of_nat k -> b < 256 ^ N.of_nat k ->
  be_fixed k a = be_fixed k b -> a = b.
Proof.
  intros Ha Hb H. rewrite <- (be_to_N_be_fixed_small k a Ha), <- (be_to_N_be_fixed_small k b Hb).
  now rewrite H.
Qed.

Lemma be_to_N_inj a b : wf_bytes a -> wf_bytes b -> length a = length b ->
  be_to_N a = be_to_N b -> a = b.
Proof.
  intros Ha Hb Hl H. rewrite <- (be_fixed_be_to_N a Ha), <- (be_fixed_be_to_N b Hb).
  now rewrite Hl, H.
Qed.

(** Dropping the top bytes of a fixed representation. *)
Lemma skipn_be_fixed j k n : (j <= k)%nat -> skipn j (be_fixed k n) = be_fixed (k - j) n.
Proof.
  revert n; induction k as [|k IH]; intros n Hj.
  - assert (j = O) by lia. subst. reflexivity.
  - destruct (Nat.eq_dec j (S k)) as [->|Hne].
    + rewrite skipn_all2; [|rewrite be_fixed_length; lia].
      replace (S k - S k)%nat with O by lia. reflexivity.
    + cbn [be_fixed]. rewrite skipn_app, be_fixed_length.
      replace (j - k)%nat with O by lia. rewrite IH by lia.
      replace (S k - j)%nat with (S (k - j)) by lia. reflexivity.
Qed.

Lemma firstn_app_exact {A} (a b : list A) n : n = length a -> firstn n (a ++ b) = a.
Proof. intros ->. rewrite firstn_app, firstn_all, Nat.sub_diag. cbn. apply app_nil_r. Qed.

Lemma skipn_app_exact {A} (a b : list A) n : n = length a -> skipn n (a ++ b) = b.
Proof. intros ->. rewrite skipn_app, skipn_all, Nat.sub_diag. reflexivity. Qed.

Lemma blen_to_nat b : N.to_nat (blen b) = length b.
Proof. unfold blen. lia. Qed.

Lemma bytes_eqb_eq a b : bytes_eqb a b = true <-> a = b.
Proof.
  revert b; induction a as [|x a IH]; intros [|y b]; cbn [bytes_eqb]; try easy.
  rewrite andb_true_iff, IH, N.eqb_eq. split; [intros [-> ->]; auto | intros H; inversion H; auto].
Qed.

(** Lexicographic order facts. *)
Lemma lex_lt_irrefl a : lex_lt a a = false.
Proof.
  induction a as [|x a IH]; cbn [lex_lt]; [reflexivity|].
  destruct (N.ltb_spec x x); [lia|]. exact IH.
Qed.

Lemma lex_lt_trans a b c : lex_lt a b = true -> lex_lt b c = true -> lex_lt a c = true.
Proof.
  revert b c; induction a as [|x a IH]; intros [|y b] [|z c]; cbn [lex_lt]; try easy.
  destruct (N.ltb_spec x y), (N.ltb_spec y x), (N.ltb_spec y z), (N.ltb_spec z y),
    (N.ltb_spec x z), (N.ltb_spec z x); try easy; try lia.
  apply IH.
Qed.

Lemma lex_lt_total a b : lex_lt a b = false -> lex_lt b a = false -> a = b.
Proof.
  revert b; induction a as [|x a IH]; intros [|y b]; cbn [lex_lt]; try easy.
  destruct (N.ltb_spec x y), (N.ltb_spec y x); try easy; try lia.
  intros. f_equal; [lia | now apply IH].
Qed.

Lemma lex_lt_asym a b : lex_lt a b = true -> lex_lt b a = false.
Proof.
  intros H. destruct (lex_lt b a) eqn:E; [|reflexivity].
  pose proof (lex_lt_trans _ _ _ H E). rewrite lex_lt_irrefl in *. discriminate.
Qed.

Lemma lex_lt_app_common p a b : lex_lt (p ++ a) (p ++ b) = lex_lt a b.
Proof.
  induction p as [|x p IH]; cbn [app lex_lt]; [reflexivity|].
  destruct (N.ltb_spec x x); [lia|]. exact IH.
Qed.

Lemma lex_lt_app_l a b c d : length a = length b -> a <> b -> lex_lt (a ++ c) (b ++ d) = lex_lt a b.
Proof.
  revert b; induction a as [|x a IH]; intros [|y b]; cbn [app lex_lt length]; try easy.
  intros Hl Hne. destruct (N.ltb_spec x y), (N.ltb_spec y x); try easy.
  assert (x = y) by lia. subst. apply IH; [lia | congruence].
Qed.

(** On equal-length strings the byte-wise order is the numeric order. *)
Lemma lex_lt_be a b : wf_bytes a -> wf_bytes b -> length a = length b ->
  lex_lt a b = (be_to_N a <? be_to_N b).
Proof.
  revert b; induction a as [|x a IH]; intros [|y b] Ha Hb Hl; try discriminate.
  - reflexivity.
  - apply wf_cons in Ha as [Hx Ha]. apply wf_cons in Hb as [Hy Hb].
    cbn [length] in Hl. injection Hl as Hl. cbn [lex_lt].
    rewrite !be_to_N_cons.
    pose proof (be_to_N_bound a Ha) as Ba. pose proof (be_to_N_bound b Hb) as Bb.
    assert (Hbl : blen a = blen b) by (unfold blen; now rewrite Hl).
    rewrite Hbl in *. set (P := 256 ^ blen b) in *.
    destruct (N.ltb_spec x y).
    + symmetry. apply N.ltb_lt. nia.
    + destruct (N.ltb_spec y x).
      * symmetry. apply N.ltb_ge. nia.
      * assert (x = y) by lia. subst y. rewrite IH by assumption.
        destruct (N.ltb_spec (be_to_N a) (be_to_N b)); symmetry; [apply N.ltb_lt | apply N.ltb_ge]; lia.
Qed.

Lemma lex_lt_be_fixed k a b : a < 256 ^ N.of_nat k -> b < 256 ^ N.of_nat k ->
  lex_lt (be_fixed k a) (be_fixed k b) = (a <? b).
Proof.
  intros Ha Hb. rewrite lex_lt_be; auto using be_fixed_wf.
  - now rewrite !be_to_N_be_fixed_small.
  - now rewrite !be_fixed_length.
Qed.

(** Bit-size facts. *)
Lemma N_size_bound n : n < 2 ^ N.size n.
Proof. apply N.size_gt. Qed.

Lemma N_size_le_iff n w : N.size n <= w <-> n < 2 ^ w.
Proof.
  split; intros H.
  - eapply N.lt_le_trans; [apply N.size_gt|]. apply N.pow_le_mono_r; lia.
  - destruct (N.eq_dec n 0) as [->|Hn]; [cbn; lia|].
    rewrite N.size_log2 by assumption. apply N.log2_lt_pow2 in H; lia.
Qed.

Lemma pow256_2 k : 256 ^ k = 2 ^ (8 * k).
Proof. change 256 with (2 ^ 8). now rewrite <- N.pow_mul_r. Qed.

Lemma app_eq_length {A} (a b c d : list A) : a ++ b = c ++ d -> length a = length c -> a = c /\ b = d.
Proof.
  revert c; induction a as [|x a IH]; intros [|y c] E L; cbn in *; try discriminate; auto.
  injection E as -> E. injection L as L. destruct (IH c E L) as [-> ->]. auto.
Qed.

Lemma view_app a b : view (a ++ b) -> view a /\ view b.
Proof. unfold view. rewrite wf_app, blen_app. intros [[? ?] ?]. repeat split; auto; lia. Qed.

Lemma view_wf a : view a -> wf_bytes a.
Proof. now intros [? _]. Qed.
