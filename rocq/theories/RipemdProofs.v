From Verif Require Import Base BaseFacts KeccakModel Sha256Spec Sha256Model Sha256Proofs RipemdModel RipemdSpec.

(** ** Words. *)
Lemma rol_ok x s : w32 x -> 0 < s -> s < 32 -> ROL x s = rol s x /\ w32 (rol s x).
Proof.
  unfold w32. intros V C1 C2. unfold ROL, rol. rewrite N.shiftr_div_pow2, N.shiftl_mul_pow2.
  assert (E : 2 ^ 32 = 2 ^ (32 - s) * 2 ^ s) by (rewrite <- N.pow_add_r; f_equal; lia).
  assert (P1 : 2 ^ s <> 0) by (apply N.pow_nonzero; discriminate).
  assert (P2 : 2 ^ (32 - s) <> 0) by (apply N.pow_nonzero; discriminate).
  assert (Q : x / 2 ^ (32 - s) < 2 ^ s) by (apply N.div_lt_upper_bound; [exact P2|]; rewrite <- E; exact V).
  assert (M : x * 2 ^ s mod 2 ^ 32 = x mod 2 ^ (32 - s) * 2 ^ s) by (rewrite E; apply N.mul_mod_distr_r; assumption).
  rewrite M. rewrite lor_add by exact Q. split; [reflexivity|].
  assert (R : x mod 2 ^ (32 - s) < 2 ^ (32 - s)) by (apply N.mod_lt; exact P2).
  rewrite E. clear E M V. nia.
Qed.
Lemma basic_ok op x y z : w32 x -> w32 y -> w32 z ->
  apply_basic op x y z = f (match op with F => 0 | G => 1 | H => 2 | I => 3 | J => 4 end)%nat x y z.
Proof. intros X Y Z. destruct op; cbn [apply_basic f]; rewrite ?compl_ok by assumption; reflexivity. Qed.

(** ** The lines. *)
Definition round_op (n : nat) : basic := nth n [F; G; H; I; J] F.
Definition expected (op : basic) (k : N) (x : nat) (s : N) (j : nat) : operation :=
  Op op k ((80 - j) mod 5) ((81 - j) mod 5) ((82 - j) mod 5) ((83 - j) mod 5) ((84 - j) mod 5) x s.
Lemma left_line_ok : left_line =
  map (fun j => expected (round_op (j / 16)) (K_left (j / 16)) (r_left j) (shift (j / 16) (r_left j)) j) (seq 0 80).
Proof. vm_compute. reflexivity. Qed.
Lemma right_line_ok : right_line =
  map (fun j => expected (round_op (4 - j / 16)) (K_right (j / 16)) (r_right j) (shift (j / 16) (r_right j)) j) (seq 0 80).
Proof. vm_compute. reflexivity. Qed.

(** Where the chaining variables are before step [j]. *)
Definition chain_at (j : nat) (v : list N) : chain :=
  mkChain (nth ((80 - j) mod 5) v 0) (nth ((81 - j) mod 5) v 0) (nth ((82 - j) mod 5) v 0) (nth ((83 - j) mod 5) v 0) (nth ((84 - j) mod 5) v 0).
Definition words5 (v : list N) : Prop := length v = 5%nat /\ Forall w32 v.

Lemma nth_w v i : Forall w32 v -> w32 (nth i v 0).
Proof.
  intros Fv. destruct (nth_in_or_default i v 0) as [X| ->]; [|reflexivity]. rewrite Forall_forall in Fv. apply Fv, X.
Qed.
Lemma basic_number n : (n < 5)%nat -> match round_op n with F => 0 | G => 1 | H => 2 | I => 3 | J => 4 end%nat = n.
Proof. intros L. do 5 (destruct n as [|n]; [reflexivity|]). lia. Qed.

Lemma sum_ok a b c d : plus a (b + c + d) = plus32 (plus32 (plus32 a b) c) d.
Proof. rewrite plus32_four. unfold plus. f_equal. lia. Qed.

Lemma upd_w : forall i x v, w32 x -> Forall w32 v -> Forall w32 (upd i x v).
Proof. induction i as [|i IH]; intros x [|y v] X Fv; cbn; auto; apply Forall_cons_iff in Fv; destruct Fv; constructor; auto. Qed.

Lemma perform_ok X n k x s j v : (n < 5)%nat -> (j < 80)%nat -> words5 v -> 0 < s -> s < 32 ->
  let v' := perform X v (expected (round_op n) k x s j) in
  chain_at (S j) v' = step (f n) (nth x X 0) k s (chain_at j v) /\ words5 v'.
Proof.
  intros Ln Lj [L Fv] S1 S2. cbv zeta. unfold perform, expected. cbn [o_f o_k o_a o_b o_c o_d o_e o_x o_s].
  assert (C : exists a b c d e, v = [a; b; c; d; e]).
  { destruct v as [|a [|b [|c [|d [|e [|]]]]]]; try discriminate L. eauto 6. }
  destruct C as (a & b & c & d & e & ->). repeat (apply Forall_cons_iff in Fv; destruct Fv as [? Fv]).
  assert (Cases : exists q, (80 - j = 5 * q + (80 - j) mod 5)%nat) by (exists ((80 - j) / 5)%nat; apply Nat.div_mod; discriminate).
  destruct Cases as [q Eq]. pose proof (Nat.mod_upper_bound (80 - j) 5 ltac:(discriminate)) as Um.
  assert (Mods : forall i, (i < 5)%nat -> ((80 + i - j) mod 5 = ((80 - j) mod 5 + i) mod 5)%nat).
  { intros i _. replace (80 + i - j)%nat with ((80 - j) mod 5 + i + q * 5)%nat by lia. apply Nat.mod_add. discriminate. }
  assert (ModsS : forall i, (i < 5)%nat -> ((80 + i - S j) mod 5 = ((80 - j) mod 5 + i + 4) mod 5)%nat).
  { intros i _. replace ((80 - j) mod 5 + i + 4)%nat with ((80 - j) mod 5 + i + 4 + q * 0)%nat by lia.
    rewrite <- (Nat.mod_add (80 + i - S j) 1 5) by discriminate. replace (80 + i - S j + 1 * 5)%nat with ((80 - j) mod 5 + i + 4 + q * 5)%nat by lia.
    rewrite Nat.mod_add by discriminate. f_equal. lia. }
  unfold chain_at.
  pose proof (Mods 1%nat ltac:(lia)) as M1. pose proof (Mods 2%nat ltac:(lia)) as M2. pose proof (Mods 3%nat ltac:(lia)) as M3.
  pose proof (Mods 4%nat ltac:(lia)) as M4. pose proof (ModsS 0%nat ltac:(lia)) as N0. pose proof (ModsS 1%nat ltac:(lia)) as N1.
  pose proof (ModsS 2%nat ltac:(lia)) as N2. pose proof (ModsS 3%nat ltac:(lia)) as N3. pose proof (ModsS 4%nat ltac:(lia)) as N4.
  change (80 + 0)%nat with 80%nat in *. change (80 + 1)%nat with 81%nat in *. change (80 + 2)%nat with 82%nat in *.
  change (80 + 3)%nat with 83%nat in *. change (80 + 4)%nat with 84%nat in *.
  rewrite M1, M2, M3, M4, N0, N1, N2, N3, N4. clear M1 M2 M3 M4 N0 N1 N2 N3 N4.
  clear Mods ModsS Eq. set (m := ((80 - j) mod 5)%nat) in *. clearbody m. clear Lj j q L Fv.
  assert (Cm : (m = 0 \/ m = 1 \/ m = 2 \/ m = 3 \/ m = 4)%nat) by lia. clear Um.
  set (xx := nth x X 0). clearbody xx. set (sel := match round_op n with F => 0 | G => 1 | H => 2 | I => 3 | J => 4 end%nat) in *.
  assert (Bn : forall x y z, w32 x -> w32 y -> w32 z -> apply_basic (round_op n) x y z = f n x y z).
  { intros. rewrite basic_ok by assumption. rewrite basic_number by exact Ln. reflexivity. }
  clearbody sel. generalize dependent (apply_basic (round_op n)). generalize (f n). intros g ab Bn. clear sel Ln.
  assert (Rs : forall x, w32 x -> ROL x s = rol s x) by (intros; apply rol_ok; assumption).
  assert (R10 : forall x, w32 x -> ROL x 10 = rol 10 x) by (intros; apply rol_ok; [assumption|reflexivity|reflexivity]).
  unfold step, words5. cbn [cA cB cC cD cE].
  repeat (destruct Cm as [->|Cm]; [|]); try subst m; cbn [Nat.modulo Nat.divmod Nat.add Nat.sub fst snd nth upd length];
    (rewrite Bn by assumption; rewrite !sum_ok; rewrite Rs by apply plus32_w; rewrite R10 by assumption;
     change plus with plus32; split; [reflexivity|]; split; [reflexivity|];
     repeat (apply Forall_cons; [first [assumption | apply plus32_w | apply rol_ok; [assumption|reflexivity|reflexivity]]|]); constructor).
Qed.

Lemma shift_range : forallb (fun r => forallb (fun w => (0 <? shift r w) && (shift r w <? 32)) (seq 0 16)) (seq 0 5) = true.
Proof. vm_compute. reflexivity. Qed.
Lemma shift_ok r w : (r < 5)%nat -> (w < 16)%nat -> 0 < shift r w /\ shift r w < 32.
Proof.
  intros R W. pose proof shift_range as S. rewrite forallb_forall in S. specialize (S r ltac:(apply in_seq; lia)).
  rewrite forallb_forall in S. specialize (S w ltac:(apply in_seq; lia)). apply andb_true_iff in S. destruct S as [S1 S2].
  split; [apply N.ltb_lt, S1|apply N.ltb_lt, S2].
Qed.
Lemma words_range : forallb (fun j => (r_left j <? 16)%nat && (r_right j <? 16)%nat && (j / 16 <? 5)%nat) (seq 0 80) = true.
Proof. vm_compute. reflexivity. Qed.
Lemma r_ok j : (j < 80)%nat -> (r_left j < 16 /\ r_right j < 16 /\ j / 16 < 5)%nat.
Proof.
  intros Lj. pose proof words_range as S. rewrite forallb_forall in S. specialize (S j ltac:(apply in_seq; lia)).
  apply andb_true_iff in S. destruct S as [S S3]. apply andb_true_iff in S. destruct S as [S1 S2].
  split; [apply Nat.ltb_lt, S1|split; [apply Nat.ltb_lt, S2|apply Nat.ltb_lt, S3]].
Qed.

Lemma left_ok X : forall count j v, (j + count = 80)%nat -> words5 v ->
  let v' := fold_left (perform X) (map (fun j => expected (round_op (j / 16)) (K_left (j / 16)) (r_left j) (shift (j / 16) (r_left j)) j) (seq j count)) v in
  chain_at 80 v' = fold_left (left_step X) (seq j count) (chain_at j v) /\ words5 v'.
Proof.
  induction count as [|c IH]; intros j v E W; cbv zeta.
  - replace j with 80%nat by lia. split; [reflexivity|exact W].
  - change (seq j (S c)) with (j :: seq (S j) c). cbn [map fold_left].
    destruct (r_ok j ltac:(lia)) as (R1 & R2 & R3). destruct (shift_ok (j / 16) (r_left j) R3 R1) as [S1 S2].
    destruct (perform_ok X (j / 16) (K_left (j / 16)) (r_left j) (shift (j / 16) (r_left j)) j v R3 ltac:(lia) W S1 S2) as [Ec Wc].
    destruct (IH (S j) _ ltac:(lia) Wc) as [Er Wr]. rewrite Ec in Er. split; [exact Er|exact Wr].
Qed.
Lemma right_ok X : forall count j v, (j + count = 80)%nat -> words5 v ->
  let v' := fold_left (perform X) (map (fun j => expected (round_op (4 - j / 16)) (K_right (j / 16)) (r_right j) (shift (j / 16) (r_right j)) j) (seq j count)) v in
  chain_at 80 v' = fold_left (right_step X) (seq j count) (chain_at j v) /\ words5 v'.
Proof.
  induction count as [|c IH]; intros j v E W; cbv zeta.
  - replace j with 80%nat by lia. split; [reflexivity|exact W].
  - change (seq j (S c)) with (j :: seq (S j) c). cbn [map fold_left].
    destruct (r_ok j ltac:(lia)) as (R1 & R2 & R3). destruct (shift_ok (j / 16) (r_right j) R3 R2) as [S1 S2].
    destruct (perform_ok X (4 - j / 16) (K_right (j / 16)) (r_right j) (shift (j / 16) (r_right j)) j v ltac:(lia) ltac:(lia) W S1 S2) as [Ec Wc].
    destruct (IH (S j) _ ltac:(lia) Wc) as [Er Wr]. rewrite Ec in Er. split; [exact Er|exact Wr].
Qed.

Definition of_chain (h : chain) : list N := [cA h; cB h; cC h; cD h; cE h].
Definition chain_w (h : chain) : Prop := Forall w32 (of_chain h).

Lemma compress_ok h X : chain_w h -> rmd160_compress (of_chain h) X = of_chain (rmd_compress h X) /\ chain_w (rmd_compress h X).
Proof.
  intros W. unfold rmd160_compress, rmd_compress. rewrite left_line_ok, right_line_ok.
  destruct (left_ok X 80 0 (of_chain h) eq_refl (conj eq_refl W)) as [El Wl].
  destruct (right_ok X 80 0 (of_chain h) eq_refl (conj eq_refl W)) as [Er Wr].
  change (chain_at 0 (of_chain h)) with (mkChain (cA h) (cB h) (cC h) (cD h) (cE h)) in El, Er.
  assert (Eh : mkChain (cA h) (cB h) (cC h) (cD h) (cE h) = h) by (destruct h; reflexivity). rewrite Eh in El, Er.
  rewrite <- El, <- Er. clear El Er.
  set (r := fold_left _ _ _). set (l := fold_left _ _ _). clearbody l r. unfold chain_at.
  change ((80 - 80) mod 5)%nat with 0%nat. change ((81 - 80) mod 5)%nat with 1%nat. change ((82 - 80) mod 5)%nat with 2%nat.
  change ((83 - 80) mod 5)%nat with 3%nat. change ((84 - 80) mod 5)%nat with 4%nat.
  cbn [cA cB cC cD cE]. change ddd with 3%nat. change cc with 2%nat. change dd with 3%nat. change eee with 4%nat. change ee with 4%nat.
  change aaa with 0%nat. change aa with 0%nat. change bbb with 1%nat. change bb with 1%nat. change ccc with 2%nat.
  generalize (nth 0 l 0) (nth 1 l 0) (nth 2 l 0) (nth 3 l 0) (nth 4 l 0) (nth 0 r 0) (nth 1 r 0) (nth 2 r 0) (nth 3 r 0) (nth 4 r 0).
  intros l0 l1 l2 l3 l4 r0 r1 r2 r3 r4.
  unfold of_chain. cbn [nth upd cA cB cC cD cE]. change plus with plus32. split.
  - rewrite (plus32_comm r3), (plus32_comm l2). reflexivity.
  - unfold chain_w, of_chain. cbn [cA cB cC cD cE]. repeat (apply Forall_cons; [apply plus32_w|]). constructor.
Qed.
