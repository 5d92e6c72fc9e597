(** Proofs about the byte/string utilities. *)
From Verif Require Import Base BaseFacts RlpModel RlpProofs UtilModel UtilSpec.

(** ** Padding *)
Lemma zeros_length n : length (zeros n) = n.
Proof. apply repeat_length. Qed.
Lemma resize_length n b : length (resize n b) = n.
Proof. unfold resize. rewrite app_length, firstn_length, zeros_length. lia. Qed.
Lemma resize_shrink n b : (n <= length b)%nat -> resize n b = firstn n b.
Proof. intros H. unfold resize. replace (n - length b)%nat with O by lia. apply app_nil_r. Qed.
Lemma resize_grow n b : (length b <= n)%nat -> resize n b = b ++ zeros (n - length b).
Proof. intros H. unfold resize. now rewrite firstn_all2. Qed.
Lemma overwrite_length pos v b : (pos + length v <= length b)%nat -> length (overwrite pos v b) = length b.
Proof. intros H. unfold overwrite. rewrite !app_length, firstn_length, skipn_length. lia. Qed.

Lemma view_of_length b s : source_ok b s -> match s with Inside _ _ => (length (view_of b s) <= length b)%nat | _ => True end.
Proof. destruct s as [v|o l]; cbn; auto. intros H. rewrite firstn_length, skipn_length. lia. Qed.

Lemma left_pad_spec s n buffer : source_ok buffer s ->
  match s with Outside _ => True | Inside _ _ => (n <= length buffer)%nat \/ (n <= length (view_of buffer s))%nat end ->
  exists buffer', left_pad s n buffer = Some (zeros (n - length (view_of buffer s)) ++ view_of buffer s, buffer').
Proof.
  intros Hs Ha. unfold left_pad. set (v := view_of buffer s) in *. clearbody v.
  destruct (Nat.leb_spec n (length v)) as [H|H].
  - exists buffer. now replace (n - length v)%nat with O by lia.
  - assert (G : (length buffer <? n)%nat = true -> exists x, s = Outside x).
    { intros Hg. apply Nat.ltb_lt in Hg. destruct s as [x|o l]; [eauto|]. destruct Ha; lia. }
    set (b0 := if (length buffer <? n)%nat then resize n buffer else buffer).
    assert (L0 : (n <= length b0)%nat).
    { unfold b0. destruct (Nat.ltb_spec (length buffer) n); [rewrite resize_length|]; lia. }
    assert (R : overwrite 0 (zeros (n - length v)) (resize n (overwrite (n - length v) v b0)) = zeros (n - length v) ++ v).
    { clearbody b0. rewrite resize_shrink by (rewrite overwrite_length; lia).
      unfold overwrite at 1. cbn [firstn app Nat.add]. rewrite zeros_length. f_equal. unfold overwrite.
      rewrite firstn_app, firstn_firstn, firstn_length. rewrite (Nat.min_l (n - length v) (length b0)) by lia.
      rewrite firstn_app. replace (n - (n - length v) - length v)%nat with O by lia. cbn [firstn]. rewrite app_nil_r.
      rewrite (Nat.min_r n) by lia. rewrite (firstn_all2 (n := (n - (n - length v))%nat) v) by lia.
      rewrite skipn_app, firstn_length. rewrite skipn_all2 by (rewrite firstn_length; lia).
      replace (n - length v - Nat.min (n - length v) (length b0))%nat with O by lia. reflexivity. }
    exists (zeros (n - length v) ++ v). rewrite R.
    destruct s as [x|o l]; [reflexivity|]. destruct (length buffer <? n)%nat; [|reflexivity].
    destruct (G eq_refl) as [x E]. discriminate.
Qed.

Lemma right_pad_spec s n buffer : source_ok buffer s ->
  exists buffer', right_pad s n buffer = Some (view_of buffer s ++ zeros (n - length (view_of buffer s)), buffer').
Proof.
  intros Hs. unfold right_pad. pose proof (view_of_length _ _ Hs) as Hl. set (v := view_of buffer s) in *. clearbody v.
  destruct (Nat.leb_spec n (length v)) as [H|H].
  - exists buffer. replace (n - length v)%nat with O by lia. now rewrite app_nil_r.
  - set (b0 := if (length buffer <? length v)%nat then resize (length v) buffer else buffer).
    assert (L0 : (length v <= length b0)%nat).
    { unfold b0. destruct (Nat.ltb_spec (length buffer) (length v)); [rewrite resize_length|]; lia. }
    assert (R : resize n (resize (length v) (overwrite 0 v b0)) = v ++ zeros (n - length v)).
    { clearbody b0. rewrite (resize_shrink (length v)) by (rewrite overwrite_length; lia).
      unfold overwrite. cbn [firstn app]. rewrite firstn_app, Nat.sub_diag, firstn_all. cbn [firstn]. rewrite app_nil_r.
      now rewrite resize_grow by lia. }
    exists (v ++ zeros (n - length v)). rewrite R.
    destruct s as [x|o l]; [reflexivity|]. destruct (Nat.ltb_spec (length buffer) (length v)); [lia|reflexivity].
Qed.

Lemma firstn_repeat_min {A} (x : A) k n : firstn k (repeat x n) = repeat x (Nat.min k n).
Proof. revert k. induction n as [|n IH]; intros [|k]; cbn; auto. now f_equal. Qed.
Lemma to_fixed_short n b : (length b <= n)%nat -> to_fixed n b = zeros (n - length b) ++ b.
Proof.
  intros H. unfold to_fixed. rewrite Nat.min_l by lia. rewrite firstn_all. unfold overwrite.
  rewrite skipn_all2 by (rewrite zeros_length; lia). rewrite app_nil_r. f_equal.
  unfold zeros. rewrite firstn_repeat_min. f_equal. lia.
Qed.
Lemma to_fixed_long n b : (n <= length b)%nat -> to_fixed n b = firstn n b.
Proof.
  intros H. unfold to_fixed. rewrite Nat.min_r by lia. rewrite Nat.sub_diag. unfold overwrite. cbn [firstn app].
  rewrite skipn_all2 by (rewrite zeros_length, firstn_length; lia). apply app_nil_r.
Qed.

(** ** zeroless_view *)
Lemma zeroless_split h : exists k, h = zeros k ++ zeroless_view h /\ (forall t, zeroless_view h <> 0 :: t).
Proof.
  induction h as [|x h IH]; [exists O; split; [reflexivity|discriminate]|].
  destruct x as [|p].
  - destruct IH as (k & E & N0). exists (S k). split; [cbn; now f_equal|exact N0].
  - exists O. split; [reflexivity|]. intros t. discriminate.
Qed.
Lemma zeroless_value h : be_to_N (zeroless_view h) = be_to_N h.
Proof. destruct (zeroless_split h) as (k & E & _). rewrite E at 2. now rewrite be_to_N_zeros. Qed.

(** ** prefix_length *)
Lemma prefix_length_spec a b :
  firstn (prefix_length a b) a = firstn (prefix_length a b) b /\
  (prefix_length a b <= length a)%nat /\ (prefix_length a b <= length b)%nat /\
  (forall k, (k <= length a)%nat -> (k <= length b)%nat -> firstn k a = firstn k b -> (k <= prefix_length a b)%nat).
Proof.
  revert b. induction a as [|x a IH]; intros [|y b]; cbn [prefix_length length]; try (repeat split; intros; cbn in *; lia || reflexivity).
  destruct (N.eqb_spec x y) as [->|E].
  - destruct (IH b) as (H1 & H2 & H3 & H4). cbn [firstn]. split; [now f_equal|]. split; [lia|]. split; [lia|].
    intros [|k] Ha Hb Hk; [lia|]. cbn [firstn] in Hk. injection Hk as Hk. apply le_n_S, H4; [lia|lia|exact Hk].
  - split; [reflexivity|]. split; [lia|]. split; [lia|]. intros [|k] Ha Hb Hk; [lia|]. cbn [firstn] in Hk. congruence.
Qed.

(** ** Hex *)
Lemma decode_hex_digit_spec c d : decode_hex_digit c = Some d <-> hex_char c d.
Proof.
  unfold decode_hex_digit, hex_char.
  destruct (N.leb_spec 48 c), (N.leb_spec c 57), (N.leb_spec 97 c), (N.leb_spec c 102), (N.leb_spec 65 c), (N.leb_spec c 70); cbn [andb];
    split; intros H'; try discriminate; try (injection H' as <-); try lia; f_equal; lia.
Qed.

Lemma nibbles x : x < 256 -> N.shiftr x 4 = x / 16 /\ N.land x 15 = x mod 16.
Proof. intros _. split; [now rewrite N.shiftr_div_pow2|]. change 15 with (N.ones 4). now rewrite N.land_ones. Qed.

Lemma lor_nibbles a b : a < 16 -> b < 16 -> N.lor (N.shiftl a 4) b mod 256 = 16 * a + b.
Proof.
  intros Ha Hb. rewrite N.shiftl_mul_pow2. change (2 ^ 4) with 16.
  assert (E : N.lor (a * 16) b = 16 * a + b).
  { assert (H : forallb (fun a => forallb (fun b => N.lor (a * 16) b =? 16 * a + b) (map N.of_nat (seq 0 16))) (map N.of_nat (seq 0 16)) = true)
      by (vm_compute; reflexivity).
    assert (IN : forall x, x < 16 -> In x (map N.of_nat (seq 0 16))).
    { intros x Hx. apply in_map_iff. exists (N.to_nat x). split; [lia|]. apply in_seq. lia. }
    rewrite forallb_forall in H. specialize (H a (IN a Ha)). rewrite forallb_forall in H. apply N.eqb_eq, H, IN, Hb. }
  rewrite E. apply N.mod_small. lia.
Qed.

Lemma hex_char_lt c d : hex_char c d -> d < 16.
Proof. unfold hex_char. lia. Qed.

Lemma from_hex_loop_spec n s b : (length s <= n)%nat -> blen s mod 2 = 0 -> from_hex_loop s false 0 = Some b <-> hex_string s b.
Proof.
  revert s b. induction n as [|n IH]; intros [|c1 [|c2 s]] b Hn He; cbn in Hn; try lia.
  - cbn. split; [intros [= <-]; constructor|intros H; inversion H; reflexivity].
  - cbn. split; [intros [= <-]; constructor|intros H; inversion H; reflexivity].
  - rewrite !blen_cons, blen_nil in He. lia.
  - rewrite !blen_cons in He. cbn [from_hex_loop]. split.
    + destruct (decode_hex_digit c1) as [d1|] eqn:E1; [|discriminate].
      destruct (decode_hex_digit c2) as [d2|] eqn:E2; [|discriminate].
      destruct (from_hex_loop s false 0) as [r|] eqn:Er; [|discriminate]. intros [= <-].
      apply decode_hex_digit_spec in E1, E2. apply IH in Er; [|lia|lia].
      rewrite lor_nibbles by (eapply hex_char_lt; eassumption). now constructor.
    + intros H. inversion H as [|? ? d1 d2 ? r H1 H2 H3]; subst. 
      pose proof (hex_char_lt _ _ H1). pose proof (hex_char_lt _ _ H2).
      apply decode_hex_digit_spec in H1, H2. apply IH in H3; [|lia|lia]. rewrite H1, H2, H3.
      now rewrite lor_nibbles.
Qed.

Lemma hex_string_even s b : hex_string s b -> blen s mod 2 = 0.
Proof. induction 1; [reflexivity|]. rewrite !blen_cons. lia. Qed.

Lemma hex_string_no_prefix c t b : hex_string (48 :: c :: t) b -> c <> 120 /\ c <> 88.
Proof. intros H. inversion H as [|? ? ? ? ? ? _ H2 _]; subst. unfold hex_char in H2. lia. Qed.

Lemma from_hex_body s b : (if negb (blen s mod 2 =? 0) then None else from_hex_loop s false 0) = Some b <-> hex_string s b.
Proof.
  destruct (N.eqb_spec (blen s mod 2) 0) as [E|E]; cbn [negb].
  - now apply (from_hex_loop_spec (length s)).
  - split; [discriminate|]. intros H. now apply hex_string_even in H.
Qed.

Lemma strip_0x_cases s : (exists t, (s = [48; 120] ++ t \/ s = [48; 88] ++ t) /\ strip_0x s = t) \/
  (strip_0x s = s /\ forall t, s <> [48; 120] ++ t /\ s <> [48; 88] ++ t).
Proof.
  destruct s as [|a [|x t]].
  - right. split; [reflexivity|]. intros t; split; discriminate.
  - right. split; [|intros t; split; discriminate]. cbn. destruct a as [|[[]|[]|]]; try reflexivity. repeat (destruct p; try reflexivity).
  - destruct (N.eq_dec a 48) as [->|Ha].
    + cbn. destruct (N.eqb_spec x 120) as [->|E1]; [left; exists t; cbn; auto|].
      destruct (N.eqb_spec x 88) as [->|E2]; [left; exists t; cbn; auto|]. right. cbn. split; [reflexivity|].
      intros t'; split; intros [= E _]; congruence.
    + right. split; [|intros t'; split; intros [= E _]; congruence].
      cbn. destruct a as [|p]; [reflexivity|]. repeat (destruct p as [p|p|]; try reflexivity). exfalso. now apply Ha.
Qed.

Lemma from_hex_spec s b : from_hex s = Some b <-> hex_denotes s b.
Proof.
  unfold from_hex. rewrite from_hex_body. unfold hex_denotes.
  destruct (strip_0x_cases s) as [(t & Hs & ->)|[-> Hn]].
  - split.
    + intros H. right. exists t. auto.
    + intros [H|(t' & Hs' & H)].
      * destruct Hs as [-> | ->]; apply hex_string_no_prefix in H; lia.
      * destruct Hs as [-> | ->], Hs' as [E|E]; injection E as E; congruence.
  - split; [now left|]. intros [H|(t' & Hs' & _)]; [exact H|]. destruct (Hn t') as [H1 H2]. destruct Hs'; contradiction.
Qed.

Lemma hex_digit_char d : d < 16 -> hex_char (hex_digit d) d.
Proof. intros H. unfold hex_char, hex_digit. destruct (N.ltb_spec d 10); lia. Qed.
Lemma to_hex_string b : wf_bytes b -> hex_string (to_hex b) b.
Proof.
  induction 1 as [|x b Hx W IH]; cbn [to_hex map concat app]; [constructor|].
  unfold wf_byte in Hx. destruct (nibbles x Hx) as [-> ->].
  replace (x :: b) with (16 * (x / 16) + x mod 16 :: b) by (f_equal; lia).
  constructor; [apply hex_digit_char; lia|apply hex_digit_char; lia|exact IH].
Qed.
Lemma from_to_hex b : wf_bytes b -> from_hex (to_hex b) = Some b.
Proof. intros W. apply from_hex_spec. left. now apply to_hex_string. Qed.
Lemma from_0x_to_hex b x : wf_bytes b -> x = 120 \/ x = 88 -> from_hex (48 :: x :: to_hex b) = Some b.
Proof. intros W Hx. apply from_hex_spec. right. exists (to_hex b). split; [destruct Hx as [-> | ->]; auto|now apply to_hex_string]. Qed.
Lemma to_hex_length b : blen (to_hex b) = 2 * blen b.
Proof. induction b as [|x b IH]; [reflexivity|]. unfold to_hex in *. cbn [map concat app]. rewrite !blen_cons, IH. lia. Qed.

(** ** Sizes *)
Lemma dec_value_snoc s c : dec_value (s ++ [c]) = dec_value s * 10 + (c - 48).
Proof. unfold dec_value. now rewrite fold_left_app. Qed.
Lemma decimal_spec s n : decimal s n <-> Forall digit s /\ dec_value s = n.
Proof.
  split.
  - induction 1 as [|s n d Hs [IH1 IH2] Hd]; [split; [constructor|reflexivity]|]. split.
    + apply Forall_app. split; [exact IH1|]. constructor; [unfold digit; lia|constructor].
    + rewrite dec_value_snoc. lia.
  - revert n. induction s as [|c s IH] using rev_ind; intros n [W <-]; [constructor|].
    apply Forall_app in W as [W Wc]. inversion Wc as [|? ? Hc _]; subst. unfold digit in Hc. rewrite dec_value_snoc.
    replace (dec_value s * 10 + (c - 48)) with (10 * dec_value s + (c - 48)) by lia.
    replace c with (48 + (c - 48)) at 1 by lia. constructor; [|lia]. apply IH. auto.
Qed.

Lemma is_digit_spec c : is_digit c = true <-> digit c.
Proof. unfold is_digit, digit. rewrite andb_true_iff, !N.leb_le. reflexivity. Qed.

Lemma span_spec p s a r : span p s = (a, r) -> s = a ++ r /\ Forall (fun c => p c = true) a /\
  (match r with [] => True | c :: _ => p c = false end).
Proof.
  revert a r. induction s as [|c s IH]; intros a r; cbn [span].
  - intros [= <- <-]. auto.
  - destruct (p c) eqn:E.
    + destruct (span p s) as [a' r'] eqn:Es. intros [= <- <-]. destruct (IH _ _ eq_refl) as (H1 & H2 & H3).
      split; [cbn; now f_equal|]. auto.
    + intros [= <- <-]. split; [reflexivity|]. auto.
Qed.
Lemma span_app p a r : Forall (fun c => p c = true) a -> (match r with [] => True | c :: _ => p c = false end) -> span p (a ++ r) = (a, r).
Proof.
  intros Ha Hr. induction Ha as [|c a Hc Ha IH]; cbn [app span].
  - destruct r as [|c r]; [reflexivity|]. cbn [app span]. now rewrite Hr.
  - now rewrite Hc, IH.
Qed.

Lemma tolower_eq c x : 97 <= x <= 122 -> tolower c = x <-> c = x \/ c = x - 32.
Proof. intros Hx. unfold tolower. destruct (N.leb_spec 65 c), (N.leb_spec c 90); cbn [andb]; lia. Qed.

Lemma iequals2 u a b : 65 <= a <= 90 -> 65 <= b <= 90 -> iequals u [a; b] = true <-> In u [[a; b]; [a; b + 32]; [a + 32; b]; [a + 32; b + 32]].
Proof.
  intros Ha Hb. unfold iequals. rewrite bytes_eqb_eq.
  assert (T : forall c x, 65 <= x <= 90 -> tolower c = tolower x <-> c = x \/ c = x + 32).
  { intros c x Hx. replace (tolower x) with (x + 32) by (unfold tolower; destruct (N.leb_spec 65 x), (N.leb_spec x 90); cbn [andb]; lia).
    rewrite tolower_eq by lia. lia. }
  split.
  - destruct u as [|x [|y [|]]]; try discriminate. cbn [map]. intros H.
    assert (H1 : tolower x = tolower a) by congruence. assert (H2 : tolower y = tolower b) by congruence.
    apply T in H1; [|assumption]. apply T in H2; [|assumption]. cbn [In]. destruct H1 as [-> | ->], H2 as [-> | ->]; auto.
  - cbn [In]. intros H. assert (E : exists x y, u = [x; y] /\ (x = a \/ x = a + 32) /\ (y = b \/ y = b + 32)).
    { destruct H as [<-|[<-|[<-|[<-|[]]]]]; eauto 10. }
    destruct E as (x & y & -> & Hx & Hy). cbn [map]. apply T in Hx, Hy; auto. now rewrite Hx, Hy.
Qed.
Lemma iequals1 u : iequals u [66] = true <-> In u [[66]; [98]].
Proof.
  unfold iequals. rewrite bytes_eqb_eq. split.
  - destruct u as [|x [|]]; try discriminate. cbn [map]. intros H. assert (H1 : tolower x = 98) by (injection H as H; exact H).
    apply tolower_eq in H1; [|lia]. cbn [In]. destruct H1 as [-> | ->]; auto.
  - cbn [In]. intros [<-|[<-|[]]]; reflexivity.
Qed.

Lemma unit_spec u k :
  (match u with [] => true | _ => existsb (iequals u) kUnits end) = true /\ multiplier_of u = k <-> size_unit u k.
Proof.
  assert (B : forall a b, {iequals a b = true} + {iequals a b = false}) by (intros; destruct (iequals a b); auto).
  assert (D : forall a b, iequals a b = true -> forall c, iequals a c = true -> map tolower b = map tolower c).
  { intros a b H1 c H2. unfold iequals in *. apply bytes_eqb_eq in H1, H2. congruence. }
  pose proof (iequals2 u 75 66 ltac:(lia) ltac:(lia)) as K. pose proof (iequals2 u 77 66 ltac:(lia) ltac:(lia)) as M.
  pose proof (iequals2 u 71 66 ltac:(lia) ltac:(lia)) as G. pose proof (iequals2 u 84 66 ltac:(lia) ltac:(lia)) as T. pose proof (iequals1 u) as B1.
  change (66 + 32) with 98 in *. change (75 + 32) with 107 in *. change (77 + 32) with 109 in *. change (71 + 32) with 103 in *. change (84 + 32) with 116 in *.
  unfold size_unit, multiplier_of. rewrite <- K, <- M, <- G, <- T, <- B1.
  split.
  - intros [Hu <-]. 
    destruct (iequals u [75; 66]) eqn:E1; [auto|]. destruct (iequals u [77; 66]) eqn:E2; [auto 6|].
    destruct (iequals u [71; 66]) eqn:E3; [auto 6|]. destruct (iequals u [84; 66]) eqn:E4; [auto 8|].
    left. split; [reflexivity|]. destruct u as [|c u]; [auto|]. right. cbn [kUnits existsb] in Hu. rewrite E1, E2, E3, E4 in Hu.
    rewrite !orb_false_r in Hu. exact Hu.
  - assert (HU : forall b, In b kUnits -> iequals u b = true -> (match u with [] => true | _ => existsb (iequals u) kUnits end) = true).
    { intros b Hb H. destruct u as [|c u]; [reflexivity|]. apply existsb_exists. eauto. }
    intros [[-> [-> |H]]|[[-> H]|[[-> H]|[[-> H]|[-> H]]]]].
    + split; reflexivity.
    + split; [apply (HU [66]); [cbn; auto|exact H]|].
      destruct (iequals u [75; 66]) eqn:E1; [discriminate (D _ _ E1 _ H)|]. destruct (iequals u [77; 66]) eqn:E2; [discriminate (D _ _ E2 _ H)|].
      destruct (iequals u [71; 66]) eqn:E3; [discriminate (D _ _ E3 _ H)|]. destruct (iequals u [84; 66]) eqn:E4; [discriminate (D _ _ E4 _ H)|]. reflexivity.
    + split; [apply (HU [75; 66]); [cbn; auto|exact H]|]. now rewrite H.
    + split; [apply (HU [77; 66]); [cbn; auto|exact H]|]. destruct (iequals u [75; 66]) eqn:E1; [discriminate (D _ _ E1 _ H)|]. now rewrite H.
    + split; [apply (HU [71; 66]); [cbn; auto|exact H]|]. destruct (iequals u [75; 66]) eqn:E1; [discriminate (D _ _ E1 _ H)|].
      destruct (iequals u [77; 66]) eqn:E2; [discriminate (D _ _ E2 _ H)|]. now rewrite H.
    + split; [apply (HU [84; 66]); [cbn; auto 8|exact H]|]. destruct (iequals u [75; 66]) eqn:E1; [discriminate (D _ _ E1 _ H)|].
      destruct (iequals u [77; 66]) eqn:E2; [discriminate (D _ _ E2 _ H)|]. destruct (iequals u [71; 66]) eqn:E3; [discriminate (D _ _ E3 _ H)|]. now rewrite H.
Qed.

Lemma unit_head u k c t : size_unit u k -> u = c :: t -> is_digit c = false /\ c <> 46 /\ c <> 32.
Proof.
  intros H ->. assert (E : 66 <= c).
  { unfold size_unit in H. cbn [In] in H. destruct H as [[_ [H|H]]|[[_ H]|[[_ H]|[[_ H]|[_ H]]]]]; try discriminate;
    repeat (destruct H as [H|H]; [injection H; intros; subst; lia|]); contradiction. }
  split; [|lia]. unfold is_digit. destruct (N.leb_spec 48 c), (N.leb_spec c 57); cbn [andb]; lia || reflexivity.
Qed.

Definition tail_of (int_part dec s : bytes) : option (bytes * bytes * bytes) :=
  let '(_, suf) := span (fun c => c =? 32) s in
  if (match suf with [] => true | _ => existsb (iequals suf) kUnits end) then Some (int_part, dec, suf) else None.
Lemma match_size_unfold s : match_size s =
  let '(ip, s1) := span is_digit s in
  match s1 with
  | 46 :: s2 => let '(dec, rest) := span is_digit s2 in
      if (1 <=? blen dec) && (blen dec <=? 3) then tail_of ip dec rest else None
  | _ => tail_of ip [] s1
  end.
Proof. reflexivity. Qed.

Lemma tail_of_ok ip dec sp u k : Forall (eq 32) sp -> size_unit u k -> tail_of ip dec (sp ++ u) = Some (ip, dec, u).
Proof.
  intros Hs Hu. unfold tail_of. rewrite span_app.
  - apply unit_spec in Hu as [Hu _]. now rewrite Hu.
  - eapply Forall_impl; [|exact Hs]. intros c <-. reflexivity.
  - destruct u as [|c t] eqn:E; [exact I|]. apply N.eqb_neq. destruct (unit_head _ _ c t Hu eq_refl) as (_ & _ & H). exact H.
Qed.
Lemma tail_of_inv ip dec s ip' dec' u : tail_of ip dec s = Some (ip', dec', u) ->
  ip' = ip /\ dec' = dec /\ exists sp, s = sp ++ u /\ Forall (eq 32) sp /\ size_unit u (multiplier_of u).
Proof.
  unfold tail_of. destruct (span _ s) as [sp suf] eqn:E. apply span_spec in E as (-> & Hsp & _).
  destruct (match suf with [] => true | _ => _ end) eqn:Eu; [|discriminate]. intros [= -> -> ->].
  split; [reflexivity|]. split; [reflexivity|]. exists sp. split; [reflexivity|]. split.
  - eapply Forall_impl; [|exact Hsp]. cbn. intros c Hc. apply N.eqb_eq in Hc. congruence.
  - apply unit_spec. auto.
Qed.

Lemma match46 {A} (s : bytes) (f : bytes -> A) (g : A) : (forall t, s <> 46 :: t) -> (match s with 46 :: s2 => f s2 | _ => g end) = g.
Proof.
  intros H. destruct s as [|a t]; [reflexivity|]. destruct a as [|p]; [reflexivity|].
  repeat (destruct p as [p|p|]; try reflexivity). exfalso. now apply (H t).
Qed.

Lemma digits_forall s : Forall digit s -> Forall (fun c => is_digit c = true) s.
Proof. apply Forall_impl. intros c. apply is_digit_spec. Qed.

Lemma match_size_ok ip dp sp u k : Forall digit ip -> Forall digit dp -> (length dp <= 3)%nat -> Forall (eq 32) sp -> size_unit u k ->
  match_size (ip ++ (match dp with [] => [] | _ => 46 :: dp end) ++ sp ++ u) = Some (ip, dp, u).
Proof.
  intros Hip Hdp Hl Hsp Hu. rewrite match_size_unfold.
  assert (NH : match sp ++ u with [] => True | c :: _ => is_digit c = false end).
  { destruct Hsp as [|c sp <- _]; cbn [app]; [|reflexivity]. destruct u as [|c t]; [exact I|]. now destruct (unit_head _ _ c t Hu eq_refl). }
  rewrite span_app; [|now apply digits_forall|].
  - destruct dp as [|d dp].
    + cbn [app]. rewrite match46; [eapply tail_of_ok; eassumption|].
      intros t. destruct Hsp as [|c sp <- _]; cbn [app]; [|discriminate]. intros E. now destruct (unit_head _ _ 46 t Hu E) as (_ & ? & _).
    + cbn [app]. change (d :: dp ++ sp ++ u) with ((d :: dp) ++ sp ++ u). rewrite span_app; [|now apply digits_forall|exact NH].
      replace ((1 <=? blen (d :: dp)) && (blen (d :: dp) <=? 3)) with true; [eapply tail_of_ok; eassumption|].
      symmetry. rewrite andb_true_iff, !N.leb_le. unfold blen. cbn [length] in *. lia.
  - destruct dp; [exact NH|reflexivity].
Qed.

Lemma match_size_inv s ip dp u : match_size s = Some (ip, dp, u) ->
  Forall digit ip /\ Forall digit dp /\ (length dp <= 3)%nat /\ size_unit u (multiplier_of u) /\
  exists sp, Forall (eq 32) sp /\ s = ip ++ (match dp with [] => [] | _ => 46 :: dp end) ++ sp ++ u.
Proof.
  rewrite match_size_unfold. destruct (span is_digit s) as [i s1] eqn:E. apply span_spec in E as (-> & Hi & _).
  assert (Hi' : Forall digit i) by (eapply Forall_impl; [|exact Hi]; intros c; apply is_digit_spec).
  destruct (match s1 with 46 :: _ => true | _ => false end) eqn:E46.
  - destruct s1 as [|a t]; [discriminate|]. assert (a = 46) as ->.
    { destruct a as [|p]; [discriminate|]. repeat (destruct p as [p|p|]; try discriminate). reflexivity. }
    destruct (span is_digit t) as [d rest] eqn:Ed. apply span_spec in Ed as (-> & Hd & _).
    destruct (_ && _) eqn:El; [|discriminate]. intros H. apply tail_of_inv in H as (-> & -> & sp & -> & Hsp & Hu).
    apply andb_true_iff in El as [E1 E2]. apply N.leb_le in E1, E2. unfold blen in E1, E2.
    assert (Hd' : Forall digit d) by (eapply Forall_impl; [|exact Hd]; intros c; apply is_digit_spec).
    split; [exact Hi'|]. split; [exact Hd'|]. split; [lia|]. split; [exact Hu|]. exists sp. split; [exact Hsp|].
    destruct d; [cbn in E1; lia|reflexivity].
  - assert (R : (match s1 with 46 :: s2 => let '(dec, rest) := span is_digit s2 in
      if (1 <=? blen dec) && (blen dec <=? 3) then tail_of i dec rest else None | _ => tail_of i [] s1 end) = tail_of i [] s1).
    { apply match46. intros t ->. discriminate. }
    rewrite R. intros H. apply tail_of_inv in H as (-> & -> & sp & -> & Hsp & Hu).
    split; [exact Hi'|]. split; [constructor|]. split; [cbn; lia|]. split; [exact Hu|]. exists sp. auto.
Qed.

Lemma unit_fun u k k' : size_unit u k -> size_unit u k' -> k = k'.
Proof. intros H H'. apply unit_spec in H as [_ <-], H' as [_ <-]. reflexivity. Qed.

Lemma dec_value_bound s : Forall digit s -> dec_value s < 10 ^ blen s.
Proof.
  induction s as [|c s IH] using rev_ind; intros H; [reflexivity|]. apply Forall_app in H as [H Hc]. inversion Hc as [|? ? Hd _]; subst.
  rewrite dec_value_snoc, blen_app, blen_cons, blen_nil. replace (blen s + (1 + 0)) with (N.succ (blen s)) by lia. rewrite N.pow_succ_r'.
  specialize (IH H). unfold digit in Hd. lia.
Qed.

Lemma unit_bound u k : size_unit u k -> 1 <= k <= 2 ^ 40.
Proof. unfold size_unit. intros [[-> _]|[[-> _]|[[-> _]|[[-> _]|[-> _]]]]]; vm_compute; split; congruence. Qed.

(** The full value, with the unsigned arithmetic of the code. *)
Definition size_value (n d : N) (e : nat) (k : N) : N :=
  ((N.min n (2 ^ 64 - 1) * k) mod 2 ^ 64 + k * d / 10 ^ N.of_nat e) mod 2 ^ 64.

Lemma parse_size_ok s n d e k : s <> [] -> size_string s n d e k -> parse_size s = Some (size_value n d e k).
Proof.
  intros Hne (ip & dp & sp & u & Hn & Hd & He & He3 & Hsp & Hu & Es).
  apply decimal_spec in Hn as [Dn Vn], Hd as [Dd Vd].
  unfold parse_size. destruct s as [|c s']; [congruence|]. rewrite Es. rewrite (match_size_ok ip dp sp u k) by (assumption || lia).
  apply unit_spec in Hu as Hu'. destruct Hu' as [_ ->]. pose proof (unit_bound _ _ Hu) as Kb.
  unfold size_value, strtoull. rewrite Vn. pose proof (dec_value_bound dp Dd) as Bd.
  assert (B3 : dec_value dp < 1000).
  { eapply N.lt_le_trans; [exact Bd|]. change 1000 with (10 ^ 3). apply N.pow_le_mono_r; [lia|]. unfold blen. lia. }
  destruct dp as [|c0 dp].
  - cbn in Vd. subst d. cbn in He. subst e. rewrite N.mul_0_r. change (0 / 10 ^ N.of_nat 0) with 0. rewrite N.add_0_r, N.mod_mod by discriminate. reflexivity.
  - rewrite Vd in *. rewrite (N.min_l d) by lia. rewrite (N.mod_small (k * d)).
    + unfold blen. rewrite He. reflexivity.
    + change (2 ^ 40) with 1099511627776 in Kb. change (2 ^ 64) with 18446744073709551616.
      apply (N.le_lt_trans _ (1099511627776 * 1000)); [|reflexivity]. apply N.mul_le_mono; lia.
Qed.

Lemma parse_size_inv s v : parse_size s = Some v -> s = [] \/ exists n d e k, size_string s n d e k.
Proof.
  unfold parse_size. destruct s as [|c s]; [now left|]. destruct (match_size (c :: s)) as [[[ip dp] u]|] eqn:E; [|discriminate].
  intros _. right. apply match_size_inv in E as (Hip & Hdp & Hl & Hu & sp & Hsp & Es).
  exists (dec_value ip), (dec_value dp), (length dp), (multiplier_of u). exists ip, dp, sp, u.
  split; [now apply decimal_spec|]. split; [now apply decimal_spec|]. auto.
Qed.

Lemma parse_size_exact s n d e k : size_string s n d e k -> n * k + k * d / 10 ^ N.of_nat e < 2 ^ 64 ->
  parse_size s = Some (n * k + k * d / 10 ^ N.of_nat e).
Proof.
  intros H B. destruct s as [|c s].
  - destruct H as (ip & dp & sp & u & Hn & Hd & He & He3 & Hsp & Hu & Es).
    destruct ip; [|discriminate]. destruct dp; [|discriminate]. destruct sp; [|discriminate]. destruct u; [|discriminate].
    apply decimal_spec in Hn as [_ <-], Hd as [_ <-]. cbn [dec_value fold_left]. rewrite N.mul_0_l, N.mul_0_r. cbn in He. subst e. reflexivity.
  - rewrite (parse_size_ok _ n d e k) by (congruence || assumption). unfold size_value.
    destruct H as (ip & dp & sp & u & _ & _ & _ & _ & _ & Hu & _). apply unit_bound in Hu.
    assert (Hn : n <= 2 ^ 64 - 1) by nia. rewrite N.min_l by exact Hn.
    set (q := k * d / 10 ^ N.of_nat e) in *. clearbody q. rewrite (N.mod_small (n * k)) by (generalize dependent (n * k); intros; lia).
    rewrite N.mod_small by exact B. reflexivity.
Qed.

Lemma parse_size_none s : parse_size s = None <-> s <> [] /\ ~ exists n d e k, size_string s n d e k.
Proof.
  split.
  - intros H. split; [intros ->; discriminate|]. intros (n & d & e & k & Hs). destruct s as [|c s]; [discriminate|].
    rewrite (parse_size_ok _ n d e k) in H by (congruence || assumption). discriminate.
  - intros [Hne H]. destruct (parse_size s) eqn:E; [|reflexivity]. apply parse_size_inv in E as [E|E]; contradiction.
Qed.

(** ** split *)
Lemma starts_with_spec d s r : starts_with d s = Some r <-> s = d ++ r.
Proof.
  revert s. induction d as [|x d IH]; intros s; cbn [starts_with app].
  - split; congruence.
  - destruct s as [|y s]; [split; discriminate|]. destruct (N.eqb_spec x y) as [->|E].
    + rewrite IH. split; congruence.
    + split; [discriminate|congruence].
Qed.

Lemma find_sub_some d s a r : d <> [] -> find_sub d s = Some (a, r) -> s = a ++ d ++ r /\ ~ contains d a.
Proof.
  intros Hd. revert a r. induction s as [|c s IH]; intros a r; cbn [find_sub].
  - destruct (starts_with d []) as [t|] eqn:E; [|discriminate]. apply starts_with_spec in E. destruct d; [congruence|discriminate].
  - destruct (starts_with d (c :: s)) as [t|] eqn:E.
    + intros [= <- <-]. apply starts_with_spec in E. split; [exact E|]. intros (x & y & Hx). destruct x, d; try discriminate. congruence.
    + destruct (find_sub d s) as [[a' r']|] eqn:Es; [|discriminate]. intros [= <- <-]. destruct (IH _ _ eq_refl) as [-> Hn].
      split; [reflexivity|]. intros (x & y & Hx). destruct x as [|x0 x].
      * assert (starts_with d (c :: a' ++ d ++ r') = Some (y ++ d ++ r')); [|congruence]. apply starts_with_spec.
        change (c :: a' ++ d ++ r') with ((c :: a') ++ d ++ r'). rewrite Hx. cbn [app]. now rewrite <- app_assoc.
      * cbn [app] in Hx. injection Hx as -> Hx. apply Hn. exists x, y. exact Hx.
Qed.
Lemma find_sub_none d s : find_sub d s = None -> ~ contains d s.
Proof.
  induction s as [|c s IH]; cbn [find_sub].
  - destruct (starts_with d []) as [t|] eqn:E; [discriminate|]. intros _ (x & y & H). destruct x; [|discriminate]. cbn in H.
    symmetry in H. assert (starts_with d [] = Some y) by (apply starts_with_spec; congruence). congruence.
  - destruct (starts_with d (c :: s)) as [t|] eqn:E; [discriminate|]. destruct (find_sub d s) as [[a r]|] eqn:Es; [discriminate|].
    intros _ (x & y & H). destruct x as [|x0 x].
    + assert (starts_with d (c :: s) = Some y) by (apply starts_with_spec; exact H). congruence.
    + cbn [app] in H. injection H as -> H. apply IH; [reflexivity|]. exists x, y. exact H.
Qed.

Lemma split_loop_spec n d s : d <> [] -> (length s <= n)%nat ->
  exists l, split_loop n d s = Some l /\ (s = join d l \/ s = join d l ++ d /\ l <> []) /\ Forall (fun p => ~ contains d p) l.
Proof.
  intros Hd. revert s. induction n as [|n IH]; intros s Hn; cbn [split_loop].
  - destruct s; [|cbn in Hn; lia]. destruct (find_sub d []) as [[a r]|] eqn:E.
    + apply find_sub_some in E as [E _]; [|exact Hd]. destruct a, d; try discriminate. congruence.
    + exists []. split; [reflexivity|]. split; [now left|constructor].
  - destruct (find_sub d s) as [[a r]|] eqn:E.
    + apply find_sub_some in E as [-> Ha]; [|exact Hd]. rewrite !app_length in Hn. destruct (IH r) as (l & -> & Hl & Fl).
      { destruct d; [congruence|]. cbn in Hn. lia. }
      exists (a :: l). split; [reflexivity|]. split; [|constructor; assumption].
      destruct l as [|p l].
      * destruct Hl as [-> |[_ C]]; [|congruence]. right. split; [cbn; now rewrite app_nil_r|discriminate].
      * change (join d (a :: p :: l)) with (a ++ d ++ join d (p :: l)). destruct Hl as [-> |[-> _]]; [now left|right].
        split; [now rewrite !app_assoc|discriminate].
    + apply find_sub_none in E. exists (match s with [] => [] | _ => [s] end). split; [reflexivity|]. destruct s; (split; [now left|]); auto.
Qed.

Lemma split_spec s d : d <> [] -> (length d < length s)%nat ->
  exists l, split s d = Some l /\ (s = join d l \/ s = join d l ++ d) /\ Forall (fun p => ~ contains d p) l.
Proof.
  intros Hd Hl. unfold split. destruct (N.leb_spec (blen s) (blen d)) as [H|_]; [unfold blen in H; lia|].
  destruct (N.eqb_spec (blen d) 0) as [H|_]; [destruct d; [congruence|unfold blen in H; cbn in H; lia]|]. cbn [orb].
  destruct (split_loop_spec (length s) d s Hd (le_n _)) as (l & H1 & H2 & H3). exists l. split; [exact H1|]. split; [tauto|exact H3].
Qed.

Lemma split_whole s d : d = [] \/ (length s <= length d)%nat -> split s d = Some [s].
Proof.
  intros H. unfold split. destruct (N.leb_spec (blen s) (blen d)) as [_|L]; [reflexivity|]. destruct H as [-> |H]; [reflexivity|unfold blen in L; lia].
Qed.
