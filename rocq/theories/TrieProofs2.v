(** The trie builder: invariant of the open levels. *)
From Verif Require Import Base BaseFacts RlpSpec RlpModel RlpProofs UtilModel UtilProofs TrieModel TrieSpec TrieProofs.

(** ** Masks *)
Fixpoint iota (b : N) (k : nat) : list N := match k with O => [] | S k' => b :: iota (b + 1) k' end.
Lemma digits16_iota : digits16 = iota 0 16. Proof. reflexivity. Qed.
Lemma iota_in b k d : In d (iota b k) <-> b <= d < b + N.of_nat k.
Proof. revert b. induction k as [|k IH]; intros b; cbn; [lia|]. rewrite IH. lia. Qed.
Lemma iota_app b k j : iota b (k + j) = iota b k ++ iota (b + N.of_nat k) j.
Proof. revert b. induction k as [|k IH]; intros b; cbn; [now rewrite N.add_0_r|]. rewrite IH. do 3 f_equal. lia. Qed.
Lemma bit_pow d : d < 16 -> bit d = 2 ^ d.
Proof. intros H. unfold bit. rewrite N.shiftl_1_l. apply N.mod_small. apply N.pow_lt_mono_r; lia. Qed.
Lemma bit_test d b : d < 16 -> N.testbit (bit d) b = (b =? d).
Proof. intros H. rewrite bit_pow by exact H. rewrite N.pow2_bits_eqb. apply N.eqb_sym. Qed.
Lemma digits_in m d : In d (digits m) <-> d < 16 /\ N.testbit m d = true.
Proof. unfold digits. rewrite filter_In, digits16_iota, iota_in. cbn. intuition lia. Qed.
Lemma filter_none {A} (f : A -> bool) l : (forall x, In x l -> f x = false) -> filter f l = [].
Proof. induction l as [|a l IH]; intros H; [reflexivity|]. cbn. rewrite H by now left. apply IH. intros x Hx. apply H. now right. Qed.
Lemma filter_ext_in' {A} (f g : A -> bool) l : (forall x, In x l -> f x = g x) -> filter f l = filter g l.
Proof. induction l as [|a l IH]; intros H; [reflexivity|]. cbn. rewrite H by now left. rewrite IH; [reflexivity|]. intros x Hx. apply H. now right. Qed.
Lemma digits_add g d : d < 16 -> (forall b, N.testbit g b = true -> b < d) -> digits (N.lor g (bit d)) = digits g ++ [d].
Proof.
  intros Hd Hg. unfold digits. rewrite digits16_iota. replace 16%nat with (N.to_nat d + S (15 - N.to_nat d))%nat by lia.
  rewrite iota_app, !filter_app. replace (0 + N.of_nat (N.to_nat d)) with d by lia. cbn [iota]. set (r := iota (d + 1) _).
  assert (G : forall b, d <= b -> N.testbit g b = false) by (intros b Hb; destruct (N.testbit g b) eqn:E; [apply Hg in E; lia|reflexivity]).
  rewrite (filter_ext_in' (N.testbit (N.lor g (bit d))) (N.testbit g) (iota 0 _)).
  2: { intros x Hx. apply iota_in in Hx. rewrite N.lor_spec, bit_test by exact Hd. destruct (N.eqb_spec x d); [lia|apply orb_false_r]. }
  cbn [filter]. rewrite N.lor_spec, bit_test, N.eqb_refl, orb_true_r by exact Hd. rewrite (G d) by lia.
  rewrite !(filter_none _ r); [now rewrite app_nil_r| |].
  - intros x Hx. apply iota_in in Hx. apply G. lia.
  - intros x Hx. apply iota_in in Hx. rewrite N.lor_spec, bit_test by exact Hd. rewrite G by lia. destruct (N.eqb_spec x d); [lia|reflexivity].
Qed.
Lemma mask_small m : (forall b, N.testbit m b = true -> b < 16) -> m < 2 ^ 16.
Proof.
  intros H. destruct (N.lt_ge_cases m (2 ^ 16)) as [L|L]; [exact L|]. exfalso. assert (m <> 0) by lia. pose proof (N.bit_log2 m ltac:(assumption)) as B. apply H in B.
  pose proof (N.log2_le_pow2 m 16 ltac:(lia)) as X. apply X in L. lia.
Qed.
Lemma digits_nil m : (forall b, N.testbit m b = true -> b < 16) -> (digits m = [] <-> m = 0).
Proof.
  intros H. split; [|intros ->; reflexivity]. intros E. destruct (N.eq_dec m 0) as [Z|Z]; [exact Z|exfalso]. pose proof (N.bit_log2 m Z) as B. assert (In (N.log2 m) (digits m)) as I by (apply digits_in; split; [now apply H|exact B]). rewrite E in I. destruct I.
Qed.

(** ** Vectors *)
Lemma resize_len n l : length (resize n l) = n.
Proof. unfold resize. rewrite app_length, firstn_length, repeat_length. lia. Qed.
Lemma nth_repeat0 n d : nth d (repeat 0 n) 0 = 0.
Proof. revert d. induction n; intros [|d]; cbn; auto. Qed.
Lemma nth_firstn {A} (l : list A) n d x : (d < n)%nat -> nth d (firstn n l) x = nth d l x.
Proof. revert n d. induction l as [|a l IH]; intros [|n] d H; [lia|now destruct d|lia|]. destruct d; [reflexivity|]. cbn. apply IH. lia. Qed.
Lemma nth_resize n l d : nth d (resize n l) 0 = if (d <? n)%nat then nth d l 0 else 0.
Proof.
  unfold resize. destruct (Nat.ltb_spec d n) as [H|H].
  - destruct (Nat.lt_ge_cases d (length l)) as [L|L].
    + rewrite app_nth1 by (rewrite firstn_length; lia). now apply nth_firstn.
    + rewrite app_nth2 by (rewrite firstn_length; lia). rewrite nth_repeat0. symmetry. now apply nth_overflow.
  - rewrite nth_overflow; [reflexivity|]. rewrite app_length, firstn_length, repeat_length. lia.
Qed.
Lemma resize_app n a b : length a = n -> resize n (a ++ b) = a.
Proof. intros H. unfold resize. rewrite firstn_app_exact by auto. rewrite app_length. replace (n - (length a + length b))%nat with 0%nat by lia. apply app_nil_r. Qed.
Lemma resize_pad n l : (length l <= n)%nat -> resize n l = l ++ repeat 0 (n - length l).
Proof. intros H. unfold resize. now rewrite firstn_all2. Qed.
Lemma update_app f a x b : update (length a) f (a ++ x :: b) = Some (a ++ f x :: b).
Proof. induction a as [|y a IH]; [reflexivity|]. cbn. now rewrite IH. Qed.
Lemma update_nth i f l : (i < length l)%nat -> exists l', update i f l = Some l' /\ length l' = length l /\ forall d, nth d l' 0 = if (d =? i)%nat then f (nth i l 0) else nth d l 0.
Proof.
  revert i. induction l as [|x l IH]; intros i H; [cbn in H; lia|]. destruct i as [|i].
  - exists (f x :: l). split; [reflexivity|split; [reflexivity|]]. intros [|d]; reflexivity.
  - destruct (IH i ltac:(cbn in H; lia)) as (l' & E & L & A). cbn. rewrite E. exists (x :: l'). split; [reflexivity|split; [cbn; congruence|]]. intros [|d]; [reflexivity|]. cbn. apply A.
Qed.
Lemma nth_error_nth0 (l : list N) i : (i < length l)%nat -> nth_error l i = Some (nth i l 0).
Proof. revert i. induction l as [|a l IH]; intros [|i] H; cbn in *; try lia; [reflexivity|]. apply IH. lia. Qed.
Lemma pop_zeros_snoc G g : pop_zeros (G ++ [g]) = if g =? 0 then pop_zeros G else G ++ [g].
Proof. unfold pop_zeros. rewrite rev_app_distr. cbn. destruct g; [reflexivity|]. cbn. now rewrite rev_involutive. Qed.
Lemma firstn_S (l : list N) d : (d < length l)%nat -> firstn (S d) l = firstn d l ++ [nth d l 0].
Proof. revert d. induction l as [|a l IH]; intros d H; [cbn in H; lia|]. destruct d; [reflexivity|]. cbn. f_equal. apply IH. cbn in H. lia. Qed.

(** Comparing two paths *)
Lemma diverge (c : list N) : forall a, (exists y, a = c ++ y) \/ (exists d, (d < length c)%nat /\ a = firstn d c) \/ (exists d b y, (d < length c)%nat /\ a = firstn d c ++ b :: y /\ b <> nth d c 0).
Proof.
  induction c as [|x c IH]; intros a; [left; exists a; reflexivity|]. destruct a as [|b a]; [right; left; exists 0%nat; split; [cbn; lia|reflexivity]|].
  destruct (N.eq_dec b x) as [->|Hn].
  - destruct (IH a) as [(y & ->)|[(d & L & ->)|(d & z & y & L & -> & Hz)]].
    + left. exists y. reflexivity.
    + right; left. exists (S d). split; [cbn; lia|reflexivity].
    + right; right. exists (S d), z, y. split; [cbn; lia|split; [reflexivity|exact Hz]].
  - right; right. exists 0%nat, b, a. split; [cbn; lia|split; [reflexivity|exact Hn]].
Qed.

(** ** Canonical tries *)
Lemma used_in cs c : In c (used cs) <-> In (Some c) cs.
Proof.
  unfold used. rewrite in_concat. split.
  - intros (l & Hl & Hc). apply in_map_iff in Hl as ([x|] & <- & Hx); [destruct Hc as [->|[]]; exact Hx|destruct Hc].
  - intros H. exists [c]. split; [apply in_map_iff; exists (Some c); auto|now left].
Qed.
Lemma canonical_inhabited t : canonical t -> exists k v, get t k = Some v.
Proof.
  induction t as [p v|p c IH|cs IH] using mpt_ind'; intros C.
  - exists p, v. now apply get_leaf.
  - destruct C as (_ & _ & C). destruct (IH C) as (k & v & E). exists (p ++ k), v. apply get_ext. eauto.
  - apply canonical_branch in C as (L & U & C). destruct (used cs) as [|c us] eqn:E; [cbn in U; lia|]. assert (I : In (Some c) cs) by (apply used_in; rewrite E; now left).
    rewrite Forall_forall in IH. destruct (IH _ I (C _ I)) as (k & v & G). apply In_nth_error in I as (i & I). exists (N.of_nat i :: k), v. rewrite get_branch, Nat2N.id, I. exact G.
Qed.

(** ** Content below a path *)
  Lemma in_combine_snoc {A B} (l : list A) (m : list B) a b x y : length l = length m -> (In (x, y) (combine (l ++ [a]) (m ++ [b])) <-> In (x, y) (combine l m) \/ (x = a /\ y = b)).
  Proof.
    revert m. induction l as [|z l IH]; intros [|w m] H; try discriminate; cbn.
    - split; [intros [E|[]]; injection E as -> ->; auto|intros [[]|(-> & ->)]; now left].
    - rewrite IH by (cbn in H; congruence). tauto.
  Qed.
  Lemma Forall2_len {A B} (R : A -> B -> Prop) l m : Forall2 R l m -> length l = length m.
  Proof. induction 1; cbn; congruence. Qed.
  Lemma firstn_le_eq (a b : list N) n m : (m <= n)%nat -> firstn n a = firstn n b -> firstn m a = firstn m b.
  Proof. intros Hm E. apply (f_equal (firstn m)) in E. rewrite !firstn_firstn in E. now rewrite Nat.min_l in E by exact Hm. Qed.
  Lemma nth_agree (a b : list N) n d : (d < n)%nat -> firstn n a = firstn n b -> nth d a 0 = nth d b 0.
  Proof. intros Hd E. rewrite <- (nth_firstn a n d) by exact Hd. rewrite E. now apply nth_firstn. Qed.
  Lemma nth_snoc0 l d : nth d (l ++ [0]) 0 = nth d l 0.
  Proof. destruct (Nat.lt_ge_cases d (length l)); [now apply app_nth1|]. rewrite app_nth2 by lia. rewrite (nth_overflow l) by lia. destruct (d - length l)%nat as [|[|]]; reflexivity. Qed.
Section Inv.
  Variable F : list (list N * bytes).

  Definition rep (p : list N) (n : mpt) : Prop := canonical n /\ forall k v, get n k = Some v <-> In (p ++ k, v) F.
  Lemma rep_some p n : rep p n -> exists k v, In (p ++ k, v) F.
  Proof. intros (C & R). destruct (canonical_inhabited n C) as (k & v & E). exists k, v. now apply R. Qed.
  Lemma rep_leaf c v : (forall k x v w, In (k, v) F -> In (k ++ x, w) F -> x = [] /\ v = w) -> In (c, v) F -> rep c (Leaf [] v).
  Proof.
    intros HP H. split; [exact I|]. intros k w. rewrite get_leaf. split; [intros (-> & ->); now rewrite app_nil_r|]. intros X. destruct (HP _ _ _ _ H X) as (-> & ->). auto.
  Qed.

  Definition tip (q : list N) (n : mpt) : mpt :=
    match n with Leaf r v => Leaf (q ++ r) v | Ext r m => Ext (q ++ r) m | Branch cs => match q with [] => n | _ => Ext q n end end.
  Lemma get_tip q n k w : get (tip q n) k = Some w <-> exists y, k = q ++ y /\ get n y = Some w.
  Proof.
    destruct n as [r v|r m|cs]; cbn [tip].
    - rewrite get_leaf. split; [intros (-> & ->); exists r; split; [reflexivity|now apply get_leaf]|]. intros (y & -> & G). apply get_leaf in G as (-> & ->). auto.
    - rewrite get_ext. split.
      + intros (y & -> & G). exists (r ++ y). rewrite app_assoc. split; [reflexivity|]. apply get_ext. eauto.
      + intros (y & -> & G). apply get_ext in G as (z & -> & G). exists z. rewrite app_assoc. auto.
    - destruct q; [|apply get_ext]. cbn [app]. split; [eauto|intros (y & -> & G); exact G].
  Qed.
  Lemma rep_tip p q n : rep (p ++ q) n -> (forall x v, In (p ++ x, v) F -> exists y, x = q ++ y) -> rep p (tip q n).
  Proof.
    intros (C & R) O. split.
    - destruct n as [r v|r m|cs]; cbn [tip]; [exact I| |destruct q; [exact C|split; [discriminate|split; [reflexivity|exact C]]]].
      destruct C as (C1 & C2). split; [|exact C2]. intros E. apply app_eq_nil in E. now destruct E.
    - intros k v. rewrite get_tip. split.
      + intros (y & -> & G). rewrite app_assoc. now apply R.
      + intros H. destruct (O _ _ H) as (y & ->). exists y. split; [reflexivity|]. apply R. now rewrite <- app_assoc.
  Qed.

  (** ** Levels *)
  Definition marks (f : mpt -> bool) (g : N) (ns : list mpt) (m : N) : Prop := forall b, N.testbit m b = true <-> exists n, In (b, n) (combine (digits g) ns) /\ f n = true.
  Record level (p : list N) (cd g h t : N) (ns : list mpt) : Prop := {
    lv_mask : forall b, N.testbit g b = true <-> b < cd /\ exists x v, In (p ++ b :: x, v) F;
    lv_nodes : Forall2 (fun b n => rep (p ++ [b]) n) (digits g) ns;
    lv_hash : marks is_branch g ns h;
    lv_tree : marks stored g ns t }.
  Lemma marks_add f g ns m d n : d < 16 -> (forall b, N.testbit g b = true -> b < d) -> length (digits g) = length ns -> marks f g ns m -> marks f (N.lor g (bit d)) (ns ++ [n]) (if f n then N.lor m (bit d) else m).
  Proof.
    intros Hd Hg L M b. rewrite digits_add by assumption. specialize (M b).
    transitivity (N.testbit m b = true \/ (b = d /\ f n = true)).
    - destruct (f n); [|split; [auto|intros [X|(_ & X)]; [exact X|discriminate]]]. rewrite N.lor_spec, bit_test, orb_true_iff, N.eqb_eq by exact Hd. intuition.
    - rewrite M. split.
      + intros [(x & I & E)|(-> & E)]; [exists x|exists n]; (split; [apply in_combine_snoc; [exact L|auto]|exact E]).
      + intros (x & I & E). apply in_combine_snoc in I as [I|(-> & ->)]; [left; eauto|right; auto|exact L].
  Qed.
  Lemma level_add p cd g h t ns n : cd < 16 -> level p cd g h t ns -> rep (p ++ [cd]) n ->
    level p (cd + 1) (N.lor g (bit cd)) (if is_branch n then N.lor h (bit cd) else h) (if stored n then N.lor t (bit cd) else t) (ns ++ [n]).
  Proof.
    intros Hd [M Ns Hh Ht] R. assert (Hg : forall b, N.testbit g b = true -> b < cd) by (intros b Hb; now apply M in Hb). pose proof (Forall2_len _ _ _ Ns) as L. constructor.
    - intros b. rewrite N.lor_spec, bit_test, orb_true_iff, N.eqb_eq, M by exact Hd. split.
      + intros [(A & B)| ->]; [split; [lia|exact B]|split; [lia|]]. destruct (rep_some _ _ R) as (k & v & I). exists k, v. now rewrite <- app_assoc in I.
      + intros (A & B). destruct (N.eq_dec b cd); [now right|left; split; [lia|exact B]].
    - rewrite digits_add by assumption. apply Forall2_app; [exact Ns|]. constructor; [exact R|constructor].
    - apply marks_add; assumption.
    - apply marks_add; assumption.
  Qed.
  Lemma level_empty p cd : (forall b x v, b < cd -> ~ In (p ++ b :: x, v) F) -> level p cd 0 0 0 [].
  Proof.
    intros H. constructor; [|constructor| |].
    - intros b. rewrite N.bits_0. split; [discriminate|]. intros (A & x & v & B). exfalso. eapply H; eassumption.
    - intros b. rewrite N.bits_0. split; [discriminate|]. intros (x & [] & _).
    - intros b. rewrite N.bits_0. split; [discriminate|]. intros (x & [] & _).
  Qed.
  Lemma marks_zero f m : marks f 0 [] m -> m = 0.
  Proof. intros M. apply N.bits_inj. intros b. rewrite N.bits_0. destruct (N.testbit m b) eqn:E; [|reflexivity]. apply M in E as (x & [] & _). Qed.
  Lemma level_zero p cd h t ns : level p cd 0 h t ns -> ns = [] /\ h = 0 /\ t = 0 /\ forall b x v, b < cd -> ~ In (p ++ b :: x, v) F.
  Proof.
    intros [M Ns Hh Ht]. change (digits 0) with (@nil N) in Ns. inversion Ns. subst ns. split; [reflexivity|]. split; [eapply marks_zero, Hh|]. split; [eapply marks_zero, Ht|].
    intros b x v A B. destruct (M b) as (_ & M2). rewrite N.bits_0 in M2. discriminate M2. eauto.
  Qed.

  Variable keccak : bytes -> bytes.
  Notation collected := (collected keccak).
  Definition outs (p : list N) (g : N) (ns : list mpt) : list report := concat (map (fun e => collected (p ++ [fst e]) (snd e)) (combine (digits g) ns)).
  Inductive opened (c : list N) : list N -> list N -> list N -> list mpt -> list report -> Prop :=
  | op_nil : opened c [] [] [] [] []
  | op_snoc G H T NS O g h t ns : opened c G H T NS O -> (length G < length c)%nat -> level (firstn (length G) c) (nth (length G) c 0) g h t ns ->
      opened c (G ++ [g]) (H ++ [h]) (T ++ [t]) (NS ++ ns) (O ++ outs (firstn (length G) c) g ns).
  Lemma opened_len c G H T NS O : opened c G H T NS O -> length H = length G /\ length T = length G /\ (length G <= length c)%nat.
  Proof. induction 1; [cbn; lia|]. rewrite !app_length. cbn. lia. Qed.
  Lemma opened_agree c c' n G H T NS O : opened c G H T NS O -> (length G <= n)%nat -> (n <= length c')%nat -> firstn n c = firstn n c' -> opened c' G H T NS O.
  Proof.
    intros Op. induction Op as [|G H T NS O g h t ns Op IH L Lv]; intros Hn Hc E; [constructor|]. rewrite app_length in Hn. cbn in Hn.
    assert (E1 : firstn (length G) c = firstn (length G) c') by (apply (firstn_le_eq c c' n); [lia|exact E]). assert (E2 : nth (length G) c 0 = nth (length G) c' 0) by (apply (nth_agree c c' n); [lia|exact E]). rewrite E1. rewrite E1, E2 in Lv. constructor; [apply IH; (lia || assumption)|lia|exact Lv].
  Qed.
  Lemma opened_pad c G H T NS O k : opened c G H T NS O -> (length G + k <= length c)%nat ->
    (forall d b x v, (length G <= d < length c)%nat -> b < nth d c 0 -> ~ In (firstn d c ++ b :: x, v) F) -> opened c (G ++ repeat 0 k) (H ++ repeat 0 k) (T ++ repeat 0 k) NS O.
  Proof.
    intros Op L B. induction k as [|k IH]; [now rewrite !app_nil_r|]. specialize (IH ltac:(lia)). replace (repeat 0 (S k)) with (repeat 0 k ++ [0]) by (rewrite <- repeat_cons; reflexivity).
    rewrite !app_assoc. rewrite <- (app_nil_r NS). rewrite <- (app_nil_r O). change (@nil report) with (outs (firstn (length (G ++ repeat 0 k)) c) 0 []).
    apply op_snoc; [exact IH|rewrite app_length, repeat_length; lia|]. apply level_empty. intros b x v Hb. apply B; [rewrite app_length, repeat_length; lia|exact Hb].
  Qed.
  Lemma opened_pop c G H T NS O : opened c G H T NS O -> exists H' T', opened c (pop_zeros G) H' T' NS O /\ (forall d, nth d H' 0 = nth d H 0) /\ (forall d, nth d T' 0 = nth d T 0)
    /\ (length (pop_zeros G) <= length G)%nat
    /\ (forall d b x v, (length (pop_zeros G) <= d < length G)%nat -> b < nth d c 0 -> ~ In (firstn d c ++ b :: x, v) F) /\ (pop_zeros G = [] \/ last (pop_zeros G) 0 <> 0).
  Proof.
    induction 1 as [|G H T NS O g h t ns Op (H' & T' & Op' & EH & ET & Le & B & La) L Lv].
    - exists [], []. repeat split; [constructor|cbn; lia|cbn; lia|now left].
    - rewrite pop_zeros_snoc. destruct (N.eqb_spec g 0) as [->|Hg].
      + destruct (level_zero _ _ _ _ _ Lv) as (-> & -> & -> & Z). exists H', T'. unfold outs. cbn. rewrite !app_nil_r. split; [exact Op'|]. split; [intros d; now rewrite nth_snoc0|]. split; [intros d; now rewrite nth_snoc0|].
        rewrite app_length. cbn. split; [lia|]. split; [|exact La]. intros d b x v Hd Hb. destruct (Nat.eq_dec d (length G)) as [->|]; [now apply Z|]. apply B; [lia|exact Hb].
      + exists (H ++ [h]), (T ++ [t]). split; [now constructor|]. split; [reflexivity|]. split; [reflexivity|]. split; [lia|]. split; [lia|right; now rewrite last_last].
  Qed.
  Lemma opened_last c G g H T NS O : opened c (G ++ [g]) H T NS O -> exists H1 h T1 t NS1 ns O1, H = H1 ++ [h] /\ T = T1 ++ [t] /\ NS = NS1 ++ ns /\ O = O1 ++ outs (firstn (length G) c) g ns
    /\ opened c G H1 T1 NS1 O1 /\ (length G < length c)%nat /\ level (firstn (length G) c) (nth (length G) c 0) g h t ns.
  Proof.
    intros Op. remember (G ++ [g]) as X eqn:E. destruct Op as [|G' H T NS O g' h t ns Op L Lv]; [now destruct G|]. apply app_inj_tail in E as (-> & ->). exists H, h, T, t, NS, ns, O. do 4 (split; [reflexivity|]). auto.
  Qed.
End Inv.
