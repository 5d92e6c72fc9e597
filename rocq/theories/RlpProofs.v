(** Proofs about the RLP model. *)
From Verif Require Import Base BaseFacts RlpSpec RlpModel.

(** Case analysis on every comparison [a <? _] of the goal, discarding impossible ones. *)
Ltac ltb_on a :=
  repeat (match goal with |- context [a <? ?k] => destruct (N.ltb_spec a k); try lia end).

(** ** Shortest big-endian representation *)

Lemma byte_len_bound n k : n < 256 ^ k -> byte_len n <= k.
Proof.
  rewrite pow256_2. intros H. apply N_size_le_iff in H. unfold byte_len. lia.
Qed.

Lemma lt_pow_byte_len n : n < 256 ^ byte_len n.
Proof.
  rewrite pow256_2. apply N_size_le_iff. unfold byte_len. lia.
Qed.

Lemma byte_len_pos n : 0 < n -> 0 < byte_len n.
Proof.
  intros H. unfold byte_len. assert (N.size n <> 0); [|lia].
  intros E. pose proof (N_size_bound n) as B. rewrite E in B. change (2 ^ 0) with 1 in B. lia.
Qed.

Lemma byte_len_lower n : 0 < n -> 256 ^ (byte_len n - 1) <= n.
Proof.
  intros H. rewrite pow256_2.
  destruct (N.le_gt_cases (2 ^ (8 * (byte_len n - 1))) n) as [|G]; [assumption|].
  exfalso. apply N_size_le_iff in G. pose proof (byte_len_pos n H). unfold byte_len in *. lia.
Qed.

Lemma byte_len_unique n k : 256 ^ k <= n -> n < 256 ^ (k + 1) -> byte_len n = k + 1.
Proof.
  intros H1 H2. pose proof (pow256_pos k) as P.
  assert (byte_len n <= k + 1) by now apply byte_len_bound.
  destruct (N.le_gt_cases (byte_len n) k) as [G|G]; [|lia].
  exfalso. pose proof (lt_pow_byte_len n). 
  assert (256 ^ byte_len n <= 256 ^ k) by (apply N.pow_le_mono_r; lia). lia.
Qed.

Lemma BE_blen n : blen (BE n) = byte_len n.
Proof. unfold BE. rewrite be_fixed_blen. lia. Qed.

Lemma BE_length n : length (BE n) = N.to_nat (byte_len n).
Proof. unfold BE. now rewrite be_fixed_length. Qed.

Lemma BE_wf n : wf_bytes (BE n).
Proof. apply be_fixed_wf. Qed.

Lemma BE_val n : be_to_N (BE n) = n.
Proof.
  unfold BE. apply be_to_N_be_fixed_small. rewrite N2Nat.id. apply lt_pow_byte_len.
Qed.

Lemma BE_inj a b : BE a = BE b -> a = b.
Proof. intros H. rewrite <- (BE_val a), <- (BE_val b). now rewrite H. Qed.

Lemma BE_0 : BE 0 = [].
Proof. reflexivity. Qed.

Lemma BE_small n : 0 < n -> n < 256 -> BE n = [n].
Proof.
  intros H1 H2. unfold BE. rewrite (byte_len_unique n 0); [| |exact H2].
  - change (N.to_nat (0 + 1)) with 1%nat. cbn [be_fixed app]. f_equal. lia.
  - change (256 ^ 0) with 1. lia.
Qed.

(** The representation is the only one without a leading zero. *)
Definition no_leading_zero (bs : bytes) : Prop := match bs with [] => True | b :: _ => b <> 0 end.

Lemma BE_hd_nonzero n : no_leading_zero (BE n).
Proof.
  destruct (N.eq_dec n 0) as [->|Hn]; [exact I|].
  assert (Hp : 0 < n) by lia.
  pose proof (byte_len_lower n Hp) as L. pose proof (BE_val n) as V. pose proof (BE_blen n) as B.
  pose proof (BE_wf n) as W.
  destruct (BE n) as [|x t] eqn:E; [exact I|]. cbn. intros ->.
  rewrite be_to_N_cons, N.mul_0_l, N.add_0_l in V.
  rewrite blen_cons in B. apply wf_cons in W as [_ W].
  pose proof (be_to_N_bound t W) as U. replace (byte_len n - 1) with (blen t) in L by lia. lia.
Qed.

Lemma BE_unique bs : wf_bytes bs -> no_leading_zero bs -> bs = BE (be_to_N bs).
Proof.
  intros W H. destruct bs as [|x t]; [reflexivity|].
  cbn in H. pose proof W as W'. apply wf_cons in W' as [Hx Ht].
  unfold BE. rewrite (byte_len_unique (be_to_N (x :: t)) (blen t)).
  - rewrite <- (be_fixed_be_to_N (x :: t) W) at 1. f_equal. cbn [length]. unfold blen. lia.
  - rewrite be_to_N_cons. pose proof (pow256_pos (blen t)). nia.
  - pose proof (be_to_N_bound _ W) as U. rewrite blen_cons in U. rewrite N.add_comm. exact U.
Qed.

(** ** The C++ encoders produce the specified RLP *)

Lemma big_endian64_BE n : n < 2 ^ 64 -> big_endian64 n = BE n.
Proof.
  intros H. unfold big_endian64, BE, byte_len, clz.
  apply N_size_le_iff in H. rewrite skipn_be_fixed by lia. f_equal. lia.
Qed.

Lemma big_endian256_BE n : n < 2 ^ 256 -> big_endian256 n = BE n.
Proof.
  intros H. unfold big_endian256, BE, byte_len, clz.
  apply N_size_le_iff in H. rewrite skipn_be_fixed by lia. f_equal. lia.
Qed.

Lemma byte_len_u64 n : n < 2 ^ 64 -> byte_len n <= 8.
Proof. intros H. apply byte_len_bound. exact H. Qed.

Lemma byte_len_u256 n : n < 2 ^ 256 -> byte_len n <= 32.
Proof. intros H. apply byte_len_bound. exact H. Qed.

Definition hdr_of (h : header) : bytes :=
  if h_list h then hdr 0xC0 0xF7 (h_payload_length h) else hdr 0x80 0xB7 (h_payload_length h).

Lemma encode_header_hdr h : h_payload_length h < 2 ^ 64 -> encode_header h = hdr_of h.
Proof.
  intros H. unfold encode_header, hdr_of, hdr. destruct h as [l n]; cbn [h_list h_payload_length] in *.
  pose proof (byte_len_u64 n H).
  rewrite big_endian64_BE, BE_blen by assumption.
  destruct (N.ltb_spec n 56); destruct l; f_equal; lia.
Qed.

Lemma hdr_blen s l n : n < 2 ^ 64 -> blen (hdr s l n) = length_of_length n.
Proof.
  intros H. unfold hdr, length_of_length. destruct (n <? 56); [reflexivity|].
  rewrite blen_cons, BE_blen. apply N_size_le_iff in H. unfold byte_len, clz. lia.
Qed.

Lemma hdr_wf s l n : s <= 0xC0 -> l <= 0xF7 -> n < 2 ^ 64 -> wf_bytes (hdr s l n).
Proof.
  intros Hs Hl H. unfold hdr. pose proof (byte_len_u64 n H).
  destruct (N.ltb_spec n 56); apply wf_cons; split; auto using wf_nil, BE_wf; lia.
Qed.

Lemma rlp_str_alt s :
  rlp_str s = if needs_header s then hdr 0x80 0xB7 (blen s) ++ s else s.
Proof.
  unfold rlp_str, needs_header. destruct s as [|b [|c t]]; try reflexivity.
  destruct (N.ltb_spec b 128), (N.leb_spec 128 b); try lia; reflexivity.
Qed.

Lemma encode_bytes_spec s : blen s < 2 ^ 64 -> encode_bytes s = rlp_str s.
Proof.
  intros H. unfold encode_bytes. rewrite rlp_str_alt, encode_header_hdr by exact H.
  destruct (needs_header s); reflexivity.
Qed.

Lemma length_bytes_spec s : blen s < 2 ^ 64 -> length_bytes s = blen (rlp_str s).
Proof.
  intros H. unfold length_bytes. rewrite rlp_str_alt. destruct (needs_header s).
  - rewrite blen_app, hdr_blen by exact H. lia.
  - lia.
Qed.

Lemma rlp_str_BE n : n < 2 ^ 256 ->
  rlp_str (BE n) = if n =? 0 then [0x80] else if n <? 0x80 then [n]
                   else (0x80 + byte_len n) :: BE n.
Proof.
  intros H. destruct (N.eqb_spec n 0) as [->|Hn]; [reflexivity|].
  destruct (N.ltb_spec n 128) as [Hs|Hs].
  - rewrite BE_small by lia. unfold rlp_str. destruct (N.ltb_spec n 128); [reflexivity|lia].
  - rewrite rlp_str_alt.
    assert (Hnh : needs_header (BE n) = true).
    { unfold needs_header. destruct (BE n) as [|x [|y t]] eqn:E; try reflexivity.
      pose proof (BE_val n) as V. rewrite E in V. cbn in V. apply N.leb_le. unfold be_to_N in V. cbn in V. lia. }
    rewrite Hnh, BE_blen. unfold hdr. pose proof (byte_len_u256 n H).
    destruct (N.ltb_spec (byte_len n) 56); [reflexivity|lia].
Qed.

Lemma encode_u64_spec n : n < 2 ^ 64 -> encode_u64 n = rlp_str (BE n).
Proof.
  intros H. assert (n < 2 ^ 256) by (eapply N.lt_trans; [exact H|reflexivity]).
  rewrite rlp_str_BE by assumption. unfold encode_u64.
  rewrite big_endian64_BE, BE_blen by assumption. pose proof (byte_len_u64 n H).
  destruct (N.eqb_spec n 0); [reflexivity|]. destruct (N.ltb_spec n 128); f_equal; lia.
Qed.

Lemma encode_u256_spec n : n < 2 ^ 256 -> encode_u256 n = rlp_str (BE n).
Proof.
  intros H. rewrite rlp_str_BE by assumption. unfold encode_u256.
  rewrite big_endian256_BE, BE_blen by assumption. pose proof (byte_len_u256 n H).
  destruct (N.eqb_spec n 0); [reflexivity|]. destruct (N.ltb_spec n 128); f_equal; lia.
Qed.

Lemma length_u64_spec n : n < 2 ^ 64 -> length_u64 n = blen (rlp_str (BE n)).
Proof.
  intros H. assert (H2 : n < 2 ^ 256) by (eapply N.lt_trans; [exact H|reflexivity]).
  rewrite rlp_str_BE by assumption. unfold length_u64.
  apply N_size_le_iff in H.
  destruct (N.eqb_spec n 0) as [->|Hn]; [reflexivity|].
  destruct (N.ltb_spec n 128); [reflexivity|].
  rewrite blen_cons, BE_blen. unfold byte_len, clz. lia.
Qed.

Lemma length_u256_spec n : n < 2 ^ 256 -> length_u256 n = blen (rlp_str (BE n)).
Proof.
  intros H. rewrite rlp_str_BE by assumption. unfold length_u256.
  apply N_size_le_iff in H.
  destruct (N.eqb_spec n 0) as [->|Hn]; [reflexivity|].
  destruct (N.ltb_spec n 128); [reflexivity|].
  rewrite blen_cons, BE_blen. unfold byte_len, clz. lia.
Qed.

Lemma encode_fixed_spec b : 1 < blen b -> blen b < 56 -> encode_fixed b = rlp_str b.
Proof.
  intros H1 H2. unfold encode_fixed. rewrite rlp_str_alt.
  assert (needs_header b = true) as ->.
  { destruct b as [|x [|y t]]; try reflexivity. unfold blen in H1. cbn in H1. lia. }
  unfold hdr. destruct (N.ltb_spec (blen b) 56); [|lia]. cbn [app]. f_equal. lia.
Qed.

Lemma sum_lengths_acc {A} (len : A -> N) v acc :
  fold_left (fun acc x => acc + len x) v acc = acc + sum_lengths len v.
Proof.
  unfold sum_lengths. revert acc. induction v as [|x v IH]; intros acc; cbn [fold_left]; [lia|].
  rewrite IH, (IH (0 + len x)). lia.
Qed.

Lemma sum_lengths_cons {A} (len : A -> N) x v : sum_lengths len (x :: v) = len x + sum_lengths len v.
Proof. unfold sum_lengths at 1. cbn [fold_left]. rewrite sum_lengths_acc. lia. Qed.

Lemma sum_lengths_concat {A} (len : A -> N) (enc : A -> bytes) v :
  (forall x, In x v -> len x = blen (enc x)) ->
  sum_lengths len v = blen (concat (map enc v)).
Proof.
  induction v as [|x v IH]; intros H; [reflexivity|].
  rewrite sum_lengths_cons. cbn [map concat]. rewrite blen_app, H by (left; reflexivity).
  rewrite IH; [reflexivity|]. intros y Hy. apply H. now right.
Qed.

Lemma encode_vector_spec {A} (len : A -> N) (enc : A -> bytes) (toI : A -> item) v :
  (forall x, In x v -> len x = blen (enc x)) ->
  (forall x, In x v -> enc x = RLP (toI x)) ->
  blen (concat (map enc v)) < 2 ^ 64 ->
  encode_vector len enc v = RLP (Lst (map toI v)).
Proof.
  intros Hl He Hb. unfold encode_vector. rewrite (sum_lengths_concat len enc v Hl).
  cbn [RLP]. unfold rlp_lst.
  assert (E : concat (map RLP (map toI v)) = concat (map enc v)).
  { rewrite map_map. f_equal. apply map_ext_in. intros x Hx. symmetry. now apply He. }
  rewrite E, encode_header_hdr; [reflexivity|exact Hb].
Qed.

Lemma length_vector_spec {A} (len : A -> N) (enc : A -> bytes) v :
  (forall x, In x v -> len x = blen (enc x)) ->
  blen (concat (map enc v)) < 2 ^ 64 ->
  length_vector len v = blen (encode_vector len enc v).
Proof.
  intros Hl Hb. unfold length_vector, encode_vector. rewrite (sum_lengths_concat len enc v Hl).
  rewrite blen_app, encode_header_hdr by exact Hb. unfold hdr_of. cbn [h_list h_payload_length].
  rewrite hdr_blen by exact Hb. reflexivity.
Qed.

(** ** Decoder primitives *)

Lemma substr0_app a b : substr0 (blen a) (a ++ b) = a.
Proof.
  unfold substr0. rewrite blen_app. rewrite N.min_l by lia. apply firstn_app_exact. unfold blen. lia.
Qed.

Lemma remove_prefix_app a b : remove_prefix (blen a) (a ++ b) = Ok b.
Proof.
  unfold remove_prefix. rewrite blen_app. destruct (N.leb_spec (blen a) (blen a + blen b)); [|lia].
  f_equal. apply skipn_app_exact. unfold blen. lia.
Qed.

Lemma memcpy_from_app a b : memcpy_from (blen a) (a ++ b) = Ok a.
Proof.
  unfold memcpy_from. rewrite blen_app. destruct (N.leb_spec (blen a) (blen a + blen b)); [|lia].
  f_equal. apply firstn_app_exact. unfold blen. lia.
Qed.

Lemma remove_prefix_1 x b : remove_prefix 1 (x :: b) = Ok b.
Proof. exact (remove_prefix_app [x] b). Qed.

(** Splitting a view at a position inside it. *)
Lemma split_view n from : n <= blen from ->
  exists a b, from = a ++ b /\ blen a = n.
Proof.
  intros H. exists (firstn (N.to_nat n) from), (skipn (N.to_nat n) from). split.
  - symmetry. apply firstn_skipn.
  - unfold blen in *. rewrite firstn_length. lia.
Qed.

Lemma be_to_N_zeros k b : be_to_N (zeros k ++ b) = be_to_N b.
Proof.
  rewrite be_to_N_app. replace (be_to_N (zeros k)) with 0; [lia|].
  induction k as [|k IH]; [reflexivity|]. unfold zeros in *. cbn [repeat].
  rewrite be_to_N_cons, <- IH. lia.
Qed.

Lemma read_uint_ok max be n : wf_bytes be ->
  read_uint max be false = Ok n -> be = BE n /\ n < 256 ^ N.of_nat max.
Proof.
  unfold read_uint. intros W. destruct (N.ltb_spec (N.of_nat max) (blen be)) as [|Hl]; [discriminate|].
  destruct be as [|b t].
  - intros [= <-]. split; [reflexivity|apply pow256_pos].
  - cbn [at0 bind]. destruct (N.eqb_spec b 0); cbn [negb andb]; [discriminate|].
    rewrite be_to_N_zeros. intros [= <-].
    split.
    + apply BE_unique; [exact W|]. exact n0.
    + eapply N.lt_le_trans; [apply be_to_N_bound; exact W|]. apply N.pow_le_mono_r; lia.
Qed.

Lemma read_uint_BE max n : n < 256 ^ N.of_nat max -> read_uint max (BE n) false = Ok n.
Proof.
  intros H. unfold read_uint. rewrite BE_blen. pose proof (byte_len_bound n _ H).
  destruct (N.ltb_spec (N.of_nat max) (byte_len n)); [lia|].
  pose proof (BE_hd_nonzero n) as Z. pose proof (BE_val n) as V.
  destruct (BE n) as [|b t] eqn:E.
  - cbn in V. now rewrite <- V.
  - cbn [at0 bind]. cbn in Z. destruct (N.eqb_spec b 0); [contradiction|]. cbn [andb].
    rewrite be_to_N_zeros. now rewrite V.
Qed.

Lemma read_uint_safe max be : read_uint max be false <> UB /\ read_uint max be false <> NoFuel.
Proof.
  unfold read_uint. destruct (_ <? _); [split; discriminate|].
  destruct be as [|b t]; [split; discriminate|]. cbn [at0 bind].
  destruct (_ && _); split; discriminate.
Qed.

(** ** decode_header *)

Lemma decode_long_header_fwd lst n r : n < 2 ^ 64 -> 56 <= n ->
  decode_long_header lst (byte_len n) (BE n ++ r) = Ok (mkHeader lst n, r).
Proof.
  intros H H56. unfold decode_long_header. rewrite blen_app, BE_blen.
  destruct (N.ltb_spec (byte_len n + blen r) (byte_len n)); [lia|].
  rewrite <- (BE_blen n), substr0_app, remove_prefix_app.
  unfold read_uint64. rewrite read_uint_BE by exact H. cbn [bind].
  destruct (N.ltb_spec n 56); [lia|reflexivity].
Qed.

Lemma decode_header_fwd h r :
  h_payload_length h < 2 ^ 64 -> h_payload_length h <= blen r ->
  (h_list h = false -> h_payload_length h = 1 -> exists c t, r = c :: t /\ 128 <= c) ->
  decode_header (hdr_of h ++ r) = Ok (h, r).
Proof.
  intros H Hr H1. destruct h as [l n]. unfold hdr_of. cbn [h_list h_payload_length] in *.
  pose proof (byte_len_u64 n H) as B8. unfold decode_header, hdr.
  destruct (N.ltb_spec n 56) as [Hs|Hs].
  - destruct l; cbn [app at0 bind].
    + ltb_on (192 + n). rewrite remove_prefix_1. cbn [bind].
      replace (192 + n - 192) with n by lia. cbn [h_payload_length].
      destruct (N.ltb_spec (blen r) n); [lia|reflexivity].
    + destruct (N.ltb_spec (128 + n) 128); [lia|]. destruct (N.ltb_spec (128 + n) 184); [|lia].
      rewrite remove_prefix_1. cbn [bind]. replace (128 + n - 128) with n by lia.
      destruct (N.eqb_spec n 1) as [->|Hn].
      * destruct (H1 eq_refl eq_refl) as (c & t & -> & Hc). cbn [at0 bind].
        destruct (N.ltb_spec c 128); [lia|]. cbn [bind h_payload_length].
        destruct (N.ltb_spec (blen (c :: t)) 1); [lia|reflexivity].
      * cbn [bind h_payload_length]. destruct (N.ltb_spec (blen r) n); [lia|reflexivity].
  - assert (0 < byte_len n) by (apply byte_len_pos; lia).
    destruct l; cbn [app at0 bind].
    + ltb_on (247 + byte_len n). rewrite remove_prefix_1. cbn [bind].
      replace (247 + byte_len n - 247) with (byte_len n) by lia.
      rewrite decode_long_header_fwd by lia. cbn [bind h_payload_length].
      destruct (N.ltb_spec (blen r) n); [lia|reflexivity].
    + ltb_on (183 + byte_len n). rewrite remove_prefix_1. cbn [bind].
      replace (183 + byte_len n - 183) with (byte_len n) by lia.
      rewrite decode_long_header_fwd by lia. cbn [bind h_payload_length].
      destruct (N.ltb_spec (blen r) n); [lia|reflexivity].
Qed.

Lemma decode_header_single c t : c < 128 -> decode_header (c :: t) = Ok (mkHeader false 1, c :: t).
Proof.
  intros H. unfold decode_header. cbn [at0 bind]. destruct (N.ltb_spec c 128); [|lia].
  cbn [bind h_payload_length]. rewrite blen_cons. destruct (N.ltb_spec (1 + blen t) 1); [lia|reflexivity].
Qed.

Lemma decode_long_header_inv lst k from h r : wf_bytes from -> k <= 8 ->
  decode_long_header lst k from = Ok (h, r) ->
  exists n, h = mkHeader lst n /\ 56 <= n /\ n < 2 ^ 64 /\ from = BE n ++ r /\ k = byte_len n.
Proof.
  intros W Hk. unfold decode_long_header. destruct (N.ltb_spec (blen from) k) as [|Hl]; [discriminate|].
  destruct (split_view k from Hl) as (a & b & -> & Ha). subst k.
  rewrite substr0_app, remove_prefix_app. apply wf_app in W as [Wa Wb].
  destruct (read_uint64 a false) as [n| | |] eqn:E; cbn [bind]; try discriminate.
  apply read_uint_ok in E as [-> Hn]; [|exact Wa].
  destruct (N.ltb_spec n 56); [discriminate|]. intros [= <- <-].
  exists n. rewrite BE_blen. change (256 ^ N.of_nat 8) with (2 ^ 64) in Hn. repeat split; auto.
Qed.

Lemma decode_header_inv b h r : wf_bytes b -> decode_header b = Ok (h, r) ->
  h_payload_length h <= blen r /\ h_payload_length h < 2 ^ 64 /\
  ((h = mkHeader false 1 /\ r = b /\ exists c t, b = c :: t /\ c < 128) \/
   (b = hdr_of h ++ r /\ (h_list h = false -> h_payload_length h = 1 -> exists c t, r = c :: t /\ 128 <= c))).
Proof.
  intros W. unfold decode_header. destruct b as [|x t]; [discriminate|].
  cbn [at0 bind]. pose proof W as W0. apply wf_cons in W as [Wx Wt].
  assert (D : forall (e : res (header * bytes)) ,
     bind e (fun '(h, from) => if blen from <? h_payload_length h then Err kInputTooShort else Ok (h, from)) = Ok (h, r) ->
     e = Ok (h, r) /\ h_payload_length h <= blen r).
  { intros [[h' r']| | |]; cbn [bind]; try discriminate.
    destruct (N.ltb_spec (blen r') (h_payload_length h')); [discriminate|]. intros [= -> ->]. auto. }
  intros E. apply D in E as [E Hlen]. clear D. split; [exact Hlen|].
  destruct (N.ltb_spec x 128).
  { injection E as <- <-. split; [reflexivity|]. left. repeat split. eauto. }
  rewrite remove_prefix_1 in E. cbn [bind] in E.
  destruct (N.ltb_spec x 184).
  { assert (R : (h = mkHeader false (x - 128) /\ r = t /\
                 (h_list h = false -> h_payload_length h = 1 -> exists c t, r = c :: t /\ 128 <= c))).
    { destruct (N.eqb_spec (x - 128) 1) as [E1|E1].
      - destruct t as [|c t]; [discriminate|]. cbn [at0 bind] in E.
        destruct (N.ltb_spec c 128); [discriminate|]. injection E as <- <-. repeat split; eauto.
      - injection E as <- <-. repeat split. cbn. intros _ ?. contradiction. }
    destruct R as (-> & -> & R1). cbn [h_payload_length] in *. split; [lia|]. right. split; [|exact R1].
    unfold hdr_of, hdr. cbn [h_list h_payload_length]. destruct (N.ltb_spec (x - 128) 56); [|lia].
    cbn [app]. f_equal. lia. }
  destruct (N.ltb_spec x 192).
  { apply decode_long_header_inv in E as (n & -> & H56 & H64 & -> & Hk); [|exact Wt|lia].
    cbn [h_payload_length h_list] in *. split; [exact H64|]. right.
    unfold hdr_of, hdr. cbn [h_list h_payload_length].
    destruct (N.ltb_spec n 56); [lia|]. split; [|lia]. cbn [app]. f_equal. lia. }
  destruct (N.ltb_spec x 248).
  { injection E as <- <-. cbn [h_payload_length h_list] in *. split; [lia|]. right.
    unfold hdr_of, hdr. cbn [h_list h_payload_length]. split; [|discriminate].
    destruct (N.ltb_spec (x - 192) 56); [|lia]. cbn [app]. f_equal. lia. }
  apply decode_long_header_inv in E as (n & -> & H56 & H64 & -> & Hk); [|exact Wt|lia].
  cbn [h_payload_length h_list] in *. split; [exact H64|]. right.
  unfold hdr_of, hdr. cbn [h_list h_payload_length].
  destruct (N.ltb_spec n 56); [lia|]. split; [|discriminate]. cbn [app]. f_equal. lia.
Qed.

Definition safe {A} (r : res A) : Prop := r <> UB /\ r <> NoFuel.

Lemma safe_ok {A} (a : A) : safe (Ok a).
Proof. split; discriminate. Qed.
Lemma safe_err {A} e : safe (@Err A e).
Proof. split; discriminate. Qed.
Lemma safe_bind {A B} (r : res A) (f : A -> res B) :
  safe r -> (forall a, r = Ok a -> safe (f a)) -> safe (bind r f).
Proof.
  intros [H1 H2] Hf. destruct r; cbn [bind].
  - now apply Hf. - apply safe_err. - congruence. - congruence.
Qed.

Lemma remove_prefix_le n b : n <= blen b -> exists r, remove_prefix n b = Ok r /\ b = firstn (N.to_nat n) b ++ r.
Proof.
  intros H. unfold remove_prefix. destruct (N.leb_spec n (blen b)); [|lia].
  eexists; split; [reflexivity|]. symmetry. apply firstn_skipn.
Qed.

Lemma decode_long_header_safe lst k from : safe (decode_long_header lst k from).
Proof.
  unfold decode_long_header. destruct (N.ltb_spec (blen from) k); [apply safe_err|].
  apply safe_bind; [apply read_uint_safe|]. intros n _.
  destruct (remove_prefix_le k from) as (r & -> & _); [assumption|]. cbn [bind].
  destruct (_ <? _); [apply safe_err|apply safe_ok].
Qed.

Lemma decode_header_safe b : safe (decode_header b).
Proof.
  unfold decode_header. destruct b as [|x t]; [apply safe_err|]. cbn [at0 bind].
  rewrite remove_prefix_1. cbn [bind].
  apply safe_bind.
  - destruct (x <? 128); [apply safe_ok|]. destruct (x <? 184).
    + destruct (_ =? 1); [|apply safe_ok]. destruct t as [|c t]; [apply safe_err|]. cbn [at0 bind].
      destruct (c <? 128); [apply safe_err|apply safe_ok].
    + destruct (x <? 192); [apply decode_long_header_safe|].
      destruct (x <? 248); [apply safe_ok|apply decode_long_header_safe].
  - intros [h r] _. destruct (_ <? _); [apply safe_err|apply safe_ok].
Qed.

Lemma decode_header_payload b h r : decode_header b = Ok (h, r) -> h_payload_length h <= blen r.
Proof.
  unfold decode_header. destruct b as [|x t]; [discriminate|]. cbn [at0 bind].
  intros E. match type of E with bind ?e _ = _ => destruct e as [[h' r']| | |] end; cbn [bind] in E; try discriminate.
  destruct (N.ltb_spec (blen r') (h_payload_length h')); [discriminate|]. injection E as <- <-. assumption.
Qed.

(** ** decode_bytes *)

Lemma decode_bytes_rt s r : blen s < 2 ^ 64 -> decode_bytes (rlp_str s ++ r) = Ok (s, r).
Proof.
  intros H. unfold decode_bytes. rewrite rlp_str_alt. destruct (needs_header s) eqn:E.
  - rewrite <- app_assoc.
    change (hdr 0x80 0xB7 (blen s)) with (hdr_of (mkHeader false (blen s))).
    rewrite (decode_header_fwd (mkHeader false (blen s)) (s ++ r)); cbn [h_list h_payload_length].
    + cbn [bind h_list h_payload_length]. rewrite substr0_app, remove_prefix_app. reflexivity.
    + exact H.
    + rewrite blen_app. lia.
    + intros _ E1. unfold blen in E1. destruct s as [|c [|d t]]; cbn [length] in E1; try lia.
      cbn in E. exists c, r. split; [reflexivity|lia].
  - destruct s as [|c [|d t]]; try discriminate. cbn in E.
    cbn [app]. rewrite decode_header_single by lia. cbn [bind h_list h_payload_length].
    rewrite remove_prefix_1. cbn [bind]. now rewrite (substr0_app [c] r : substr0 1 (c :: r) = [c]).
Qed.

Lemma decode_bytes_canon b s r : wf_bytes b -> decode_bytes b = Ok (s, r) ->
  b = rlp_str s ++ r /\ blen s < 2 ^ 64 /\ wf_bytes s /\ wf_bytes r.
Proof.
  intros W. unfold decode_bytes. destruct (decode_header b) as [[h from]| | |] eqn:E; cbn [bind]; try discriminate.
  apply decode_header_inv in E as (Hl & H64 & Hc); [|exact W].
  destruct (h_list h) eqn:El; [discriminate|].
  destruct (split_view _ _ Hl) as (a & c & -> & Ha). rewrite <- Ha, substr0_app, remove_prefix_app.
  cbn [bind]. intros [= <- <-]. rewrite Ha. 
  destruct Hc as [(-> & Hb & x & t & Hx & Hlt)|(Hb & H1)].
  - cbn in Ha. subst b. destruct a as [|y [|z a]]; unfold blen in Ha; cbn [length] in Ha; try lia.
    cbn [app] in Hx. injection Hx as -> ->.
    apply wf_app in W as [W1 W2]. cbn in H64. repeat split; auto.
    unfold rlp_str. destruct (N.ltb_spec x 128); [reflexivity|lia].
  - subst b. apply wf_app in W as [_ W]. apply wf_app in W as [W1 W2].
    repeat split; auto. rewrite app_assoc. f_equal.
    rewrite rlp_str_alt. destruct h as [l n]. cbn [h_list h_payload_length] in *. subst l n.
    unfold hdr_of; cbn [h_list h_payload_length].
    replace (needs_header a) with true; [reflexivity|].
    destruct a as [|y [|z a]]; try reflexivity.
    destruct H1 as (c0 & t & Hr & Hge); [reflexivity..|].
    cbn [app] in Hr. injection Hr as -> _. symmetry. apply N.leb_le. exact Hge.
Qed.

Lemma decode_bytes_safe b : safe (decode_bytes b).
Proof.
  unfold decode_bytes. apply safe_bind; [apply decode_header_safe|]. intros [h r] E.
  apply decode_header_payload in E. destruct (h_list h); [apply safe_err|].
  destruct (remove_prefix_le _ _ E) as (r' & -> & _). apply safe_ok.
Qed.

(** ** decode_uint *)

Lemma decode_uint_bytes max b :
  decode_uint max b =
  (let* '(h, from) := decode_header b in
   if h_list h then Err kUnexpectedList
   else let* to := read_uint max (substr0 (h_payload_length h) from) false in
        let* '(_, from) := decode_bytes b in Ok (to, from)).
Proof.
  unfold decode_uint, decode_bytes. destruct (decode_header b) as [[h from]| | |]; cbn [bind]; try reflexivity.
  destruct (h_list h); [reflexivity|].
  destruct (remove_prefix (h_payload_length h) from); reflexivity.
Qed.

Lemma decode_uint_inv max b n r : decode_uint max b = Ok (n, r) ->
  exists s, decode_bytes b = Ok (s, r) /\ read_uint max s false = Ok n.
Proof.
  unfold decode_uint, decode_bytes. destruct (decode_header b) as [[h from]| | |]; cbn [bind]; try discriminate.
  destruct (h_list h); [discriminate|].
  destruct (read_uint max _ false) eqn:E; cbn [bind]; try discriminate.
  destruct (remove_prefix (h_payload_length h) from); cbn [bind]; try discriminate.
  intros [= <- <-]. eauto.
Qed.

Lemma decode_uint_of_bytes max b s r n : decode_bytes b = Ok (s, r) -> read_uint max s false = Ok n ->
  decode_uint max b = Ok (n, r).
Proof.
  unfold decode_uint, decode_bytes. destruct (decode_header b) as [[h from]| | |]; cbn [bind]; try discriminate.
  destruct (h_list h); [discriminate|].
  destruct (remove_prefix (h_payload_length h) from); cbn [bind]; try discriminate.
  intros [= <- <-] ->. reflexivity.
Qed.

Lemma decode_uint_rt max n r : (max <= 32)%nat -> n < 256 ^ N.of_nat max ->
  decode_uint max (rlp_str (BE n) ++ r) = Ok (n, r).
Proof.
  intros Hm H. eapply decode_uint_of_bytes; [apply decode_bytes_rt|now apply read_uint_BE].
  rewrite BE_blen. pose proof (byte_len_bound _ _ H). change (2 ^ 64) with 18446744073709551616. lia.
Qed.

Lemma decode_uint_canon max b n r : wf_bytes b -> decode_uint max b = Ok (n, r) ->
  b = rlp_str (BE n) ++ r /\ n < 256 ^ N.of_nat max /\ wf_bytes r.
Proof.
  intros W H. apply decode_uint_inv in H as (s & Hd & Hr).
  apply decode_bytes_canon in Hd as (-> & _ & Ws & Wr); [|exact W].
  apply read_uint_ok in Hr as [-> Hn]; [|exact Ws]. auto.
Qed.

Lemma decode_uint_safe max b : safe (decode_uint max b).
Proof.
  unfold decode_uint. apply safe_bind; [apply decode_header_safe|]. intros [h r] E.
  apply decode_header_payload in E. destruct (h_list h); [apply safe_err|].
  apply safe_bind; [apply read_uint_safe|]. intros n _.
  destruct (remove_prefix_le _ _ E) as (r' & -> & _). apply safe_ok.
Qed.

(** ** decode_fixed *)

Lemma decode_fixed_bytes n b s r : decode_fixed n b = Ok (s, r) -> decode_bytes b = Ok (s, r) /\ blen s = n.
Proof.
  unfold decode_fixed, decode_bytes. destruct (decode_header b) as [[h from]| | |] eqn:E; cbn [bind]; try discriminate.
  apply decode_header_payload in E.
  destruct (h_list h); [discriminate|]. destruct (N.eqb_spec (h_payload_length h) n) as [<-|]; [|discriminate].
  cbn [negb]. destruct (split_view _ _ E) as (a & c & -> & Ha). rewrite <- Ha, memcpy_from_app, substr0_app, remove_prefix_app.
  cbn [bind]. intros [= <- <-]. auto.
Qed.

Lemma decode_fixed_of_bytes n b s r : decode_bytes b = Ok (s, r) -> blen s = n -> decode_fixed n b = Ok (s, r).
Proof.
  unfold decode_fixed, decode_bytes. destruct (decode_header b) as [[h from]| | |] eqn:E; cbn [bind]; try discriminate.
  apply decode_header_payload in E. destruct (h_list h); [discriminate|].
  destruct (split_view _ _ E) as (a & c & -> & Ha). rewrite <- Ha, substr0_app, remove_prefix_app.
  cbn [bind]. intros [= <- <-] <-. rewrite N.eqb_refl. cbn [negb]. rewrite memcpy_from_app, remove_prefix_app. reflexivity.
Qed.

Lemma decode_fixed_rt s r : blen s < 2 ^ 64 -> decode_fixed (blen s) (rlp_str s ++ r) = Ok (s, r).
Proof. intros H. apply decode_fixed_of_bytes; [now apply decode_bytes_rt|reflexivity]. Qed.

Lemma decode_fixed_canon n b s r : wf_bytes b -> decode_fixed n b = Ok (s, r) ->
  b = rlp_str s ++ r /\ blen s = n /\ wf_bytes s /\ wf_bytes r.
Proof.
  intros W H. apply decode_fixed_bytes in H as [H Hn].
  apply decode_bytes_canon in H as (-> & _ & Ws & Wr); auto.
Qed.

Lemma decode_fixed_safe n b : safe (decode_fixed n b).
Proof.
  unfold decode_fixed. apply safe_bind; [apply decode_header_safe|]. intros [h r] E.
  apply decode_header_payload in E. destruct (h_list h); [apply safe_err|].
  destruct (N.eqb_spec (h_payload_length h) n) as [<-|]; cbn [negb]; [|apply safe_err].
  destruct (split_view _ _ E) as (a & c & -> & Ha). rewrite <- Ha, memcpy_from_app, remove_prefix_app. apply safe_ok.
Qed.

(** ** Lists *)

(** What a decoder for items of type A must satisfy with respect to an encoder. *)
Definition dec_rt {A} (wf : A -> Prop) (enc : A -> bytes) (dec : bytes -> res (A * bytes)) : Prop :=
  forall x r, wf x -> dec (enc x ++ r) = Ok (x, r).
Definition dec_canon {A} (wf : A -> Prop) (enc : A -> bytes) (dec : bytes -> res (A * bytes)) : Prop :=
  forall b x r, view b -> dec b = Ok (x, r) -> wf x /\ b = enc x ++ r.
Definition dec_consumes {A} (dec : bytes -> res (A * bytes)) : Prop :=
  forall b x r, dec b = Ok (x, r) -> (length r < length b)%nat.

Lemma decode_items_rt {A} (wf : A -> Prop) enc (dec : bytes -> res (A * bytes)) xs fuel :
  dec_rt wf enc dec -> (forall x, wf x -> enc x <> []) -> Forall wf xs ->
  (length (concat (map enc xs)) <= fuel)%nat ->
  decode_items fuel dec (concat (map enc xs)) = Ok xs.
Proof.
  intros Hrt Hne H. revert fuel. induction H as [|x xs Hx Hxs IH]; intros fuel Hf.
  - destruct fuel; reflexivity.
  - cbn [map concat] in *. rewrite app_length in Hf. pose proof (Hne x Hx) as E.
    assert (Hd : forall fuel', decode_items fuel' dec (enc x ++ concat (map enc xs)) =
             match fuel' with O => NoFuel | S f => let* '(y, v) := dec (enc x ++ concat (map enc xs)) in
                                                   let* ys := decode_items f dec v in Ok (y :: ys) end).
    { intros fuel'. destruct (enc x) as [|c t]; [congruence|]. destruct fuel'; reflexivity. }
    rewrite Hd. destruct fuel as [|fuel].
    { destruct (enc x); [congruence|]. cbn in Hf. lia. }
    rewrite Hrt by assumption. cbn [bind]. rewrite IH; [reflexivity|].
    destruct (enc x); [congruence|]. cbn [length] in Hf. lia.
Qed.

Lemma decode_items_canon {A} (wf : A -> Prop) enc (dec : bytes -> res (A * bytes)) fuel v xs :
  dec_canon wf enc dec -> view v -> decode_items fuel dec v = Ok xs ->
  Forall wf xs /\ v = concat (map enc xs).
Proof.
  intros Hc. revert v xs. induction fuel as [|fuel IH]; intros v xs W.
  - destruct v; cbn [decode_items]; [|discriminate]. intros [= <-]. split; [constructor|reflexivity].
  - destruct v as [|c t]; cbn [decode_items].
    + intros [= <-]. split; [constructor|reflexivity].
    + destruct (dec (c :: t)) as [[y v']| | |] eqn:E; cbn [bind]; try discriminate.
      apply Hc in E as [Hy E]; [|exact W]. rewrite E in W. apply view_app in W as [_ W].
      destruct (decode_items fuel dec v') as [ys| | |] eqn:E2; cbn [bind]; try discriminate.
      intros [= <-]. apply IH in E2 as [Hys ->]; [|exact W].
      split; [now constructor|]. exact E.
Qed.

Lemma decode_items_safe {A} (dec : bytes -> res (A * bytes)) fuel view :
  (forall b, safe (dec b)) -> dec_consumes dec -> (length view <= fuel)%nat ->
  safe (decode_items fuel dec view).
Proof.
  intros Hs Hc. revert view. induction fuel as [|fuel IH]; intros view Hl.
  - destruct view; [apply safe_ok|]. cbn in Hl. lia.
  - destruct view as [|c t]; [apply safe_ok|]. cbn [decode_items].
    apply safe_bind; [apply Hs|]. intros [y v] E. apply Hc in E. cbn [length] in *.
    apply safe_bind; [apply IH; lia|]. intros; apply safe_ok.
Qed.

Lemma rlp_lst_ne p : rlp_lst p <> [].
Proof. unfold rlp_lst, hdr. destruct (_ <? _); discriminate. Qed.

Lemma rlp_str_ne s : rlp_str s <> [].
Proof.
  rewrite rlp_str_alt. destruct (needs_header s) eqn:E.
  - unfold hdr. destruct (_ <? _); discriminate.
  - destruct s; [discriminate|discriminate].
Qed.

Lemma decode_list_header p r : blen p < 2 ^ 64 ->
  decode_header (rlp_lst p ++ r) = Ok (mkHeader true (blen p), p ++ r).
Proof.
  intros H. unfold rlp_lst. rewrite <- app_assoc.
  apply (decode_header_fwd (mkHeader true (blen p)) (p ++ r)); cbn [h_list h_payload_length].
  - exact H.
  - rewrite blen_app. lia.
  - discriminate.
Qed.

Lemma decode_list_header_inv b n r : wf_bytes b -> decode_header b = Ok (mkHeader true n, r) ->
  exists p r', r = p ++ r' /\ blen p = n /\ n < 2 ^ 64 /\ b = rlp_lst p ++ r' /\ wf_bytes p /\ wf_bytes r'.
Proof.
  intros W E. apply decode_header_inv in E as (Hl & H64 & Hc); [|exact W]. cbn [h_payload_length] in *.
  destruct (split_view _ _ Hl) as (p & r' & -> & Hp). exists p, r'.
  destruct Hc as [(Hc & _)|(-> & _)]; [discriminate|].
  unfold hdr_of in *; cbn [h_list h_payload_length] in *. unfold rlp_lst. rewrite Hp, <- app_assoc.
  apply wf_app in W as [_ W]. apply wf_app in W as [W1 W2]. repeat split; auto.
Qed.

Lemma decode_vector_rt {A} (wf : A -> Prop) enc (dec : bytes -> res (A * bytes)) xs r :
  dec_rt wf enc dec -> (forall x, wf x -> enc x <> []) -> Forall wf xs ->
  blen (concat (map enc xs)) < 2 ^ 64 ->
  decode_vector dec (rlp_lst (concat (map enc xs)) ++ r) = Ok (xs, r).
Proof.
  intros Hrt Hne H Hb. unfold decode_vector. rewrite decode_list_header by exact Hb.
  cbn [bind h_list h_payload_length negb]. rewrite substr0_app, remove_prefix_app.
  rewrite (decode_items_rt wf enc); auto.
Qed.

Lemma decode_vector_canon {A} (wf : A -> Prop) enc (dec : bytes -> res (A * bytes)) b xs r :
  dec_canon wf enc dec -> view b -> decode_vector dec b = Ok (xs, r) ->
  Forall wf xs /\ b = rlp_lst (concat (map enc xs)) ++ r /\ blen (concat (map enc xs)) < 2 ^ 64 /\ view r.
Proof.
  intros Hc W. unfold decode_vector. destruct (decode_header b) as [[[l n] from]| | |] eqn:E; cbn [bind h_list]; try discriminate.
  destruct l; cbn [negb]; [|discriminate]. cbn [h_payload_length].
  apply decode_list_header_inv in E as (p & r' & -> & Hp & H64 & -> & Wp & Wr'); [|exact (view_wf _ W)].
  apply view_app in W as [_ W]. assert (Vp : view p) by (split; [exact Wp|lia]).
  rewrite <- Hp, substr0_app, remove_prefix_app.
  destruct (decode_items (length p) dec p) as [ys| | |] eqn:E; cbn [bind]; try discriminate.
  intros [= <- <-]. apply (decode_items_canon wf enc) in E as [Hys Hpc]; auto.
  subst p. rewrite <- Hp in H64. auto.
Qed.

Lemma decode_vector_safe {A} (dec : bytes -> res (A * bytes)) b :
  (forall b, safe (dec b)) -> dec_consumes dec -> safe (decode_vector dec b).
Proof.
  intros Hs Hc. unfold decode_vector. apply safe_bind; [apply decode_header_safe|]. intros [h r] E.
  apply decode_header_payload in E. destruct (negb _); [apply safe_err|].
  apply safe_bind; [now apply decode_items_safe|]. intros xs _.
  destruct (remove_prefix_le _ _ E) as (r' & -> & _). apply safe_ok.
Qed.

(** Consumption of each primitive decoder. *)
Lemma decode_header_length b h r : decode_header b = Ok (h, r) -> (length r <= length b)%nat /\
   (r = b -> h_payload_length h = 1).
Proof.
  unfold decode_header. destruct b as [|x t]; [discriminate|]. cbn [at0 bind].
  rewrite remove_prefix_1. cbn [bind].
  assert (L : forall l k h r, decode_long_header l k t = Ok (h, r) -> (length r <= length t)%nat).
  { intros l k h' r'. unfold decode_long_header. destruct (N.ltb_spec (blen t) k); [discriminate|].
    destruct (read_uint64 _ _); cbn [bind]; try discriminate.
    destruct (remove_prefix k t) as [q| | |] eqn:Eq; cbn [bind]; try discriminate.
    destruct (_ <? _); [discriminate|]. intros [= _ <-]. unfold remove_prefix in Eq.
    destruct (_ <=? _); [|discriminate]. injection Eq as <-. rewrite skipn_length. lia. }
  intros E. match type of E with bind ?e _ = _ => destruct e as [[h' r']| | |] eqn:E1 end; cbn [bind] in E; try discriminate.
  destruct (blen r' <? h_payload_length h'); [discriminate|]. injection E as -> ->.
  destruct (x <? 128). { injection E1 as <- <-. split; [lia|reflexivity]. }
  assert (R : (length r <= length t)%nat).
  { destruct (x <? 184).
    - destruct (_ =? 1).
      + destruct t; [discriminate|]. cbn [at0 bind] in E1. destruct (_ <? _); [discriminate|]. injection E1 as _ <-. lia.
      + injection E1 as _ <-. lia.
    - destruct (x <? 192); [eapply L; eassumption|]. destruct (x <? 248); [injection E1 as _ <-; lia|].
      eapply L; eassumption. }
  cbn [length]. split; [lia|]. intros ->. cbn [length] in R. lia.
Qed.

Lemma decode_header_suffix b h r : decode_header b = Ok (h, r) -> exists p, b = p ++ r.
Proof.
  unfold decode_header. destruct b as [|x t]; [discriminate|]. cbn [at0 bind].
  rewrite remove_prefix_1. cbn [bind].
  assert (L : forall l k h r, decode_long_header l k t = Ok (h, r) -> exists p, t = p ++ r).
  { intros l k h' r'. unfold decode_long_header. destruct (N.ltb_spec (blen t) k); [discriminate|].
    destruct (read_uint64 _ _); cbn [bind]; try discriminate.
    destruct (remove_prefix_le k t) as (q & -> & Hq); [assumption|]. cbn [bind].
    destruct (_ <? _); [discriminate|]. intros [= _ <-]. eexists. exact Hq. }
  intros E. match type of E with bind ?e _ = _ => destruct e as [[h' r']| | |] eqn:E1 end; cbn [bind] in E; try discriminate.
  destruct (blen r' <? h_payload_length h'); [discriminate|]. injection E as -> ->.
  destruct (x <? 128). { injection E1 as <- <-. exists []. reflexivity. }
  assert (R : exists p, t = p ++ r).
  { destruct (x <? 184).
    - destruct (_ =? 1).
      + destruct t; [discriminate|]. cbn [at0 bind] in E1. destruct (_ <? _); [discriminate|]. injection E1 as _ <-. exists []. reflexivity.
      + injection E1 as _ <-. exists []. reflexivity.
    - destruct (x <? 192); [eapply L; eassumption|]. destruct (x <? 248); [injection E1 as _ <-; exists []; reflexivity|].
      eapply L; eassumption. }
  destruct R as [p ->]. exists (x :: p). reflexivity.
Qed.

Lemma decode_header_strict b h r : decode_header b = Ok (h, r) ->
  exists r', remove_prefix (h_payload_length h) r = Ok r' /\ (length r' < length b)%nat.
Proof.
  intros E. pose proof (decode_header_payload _ _ _ E) as P.
  pose proof (decode_header_suffix _ _ _ E) as [p Hp]. apply decode_header_length in E as [L1 L2].
  unfold remove_prefix. destruct (N.leb_spec (h_payload_length h) (blen r)); [|lia].
  eexists; split; [reflexivity|]. rewrite skipn_length. subst b. rewrite app_length in *.
  destruct p as [|c p]; cbn [length app] in *; [|lia].
  rewrite L2 by reflexivity. rewrite L2 in P by reflexivity. unfold blen in P. lia.
Qed.

Lemma decode_bytes_consumes : dec_consumes decode_bytes.
Proof.
  intros b x r. unfold decode_bytes. destruct (decode_header b) as [[h from]| | |] eqn:E; cbn [bind]; try discriminate.
  apply decode_header_strict in E as (r' & E & L). destruct (h_list h); [discriminate|]. rewrite E. cbn [bind].
  intros [= _ <-]. exact L.
Qed.

Lemma decode_uint_consumes max : dec_consumes (decode_uint max).
Proof.
  intros b n r E. apply decode_uint_inv in E as (s & E & _). eapply decode_bytes_consumes; exact E.
Qed.

Lemma decode_fixed_consumes n : dec_consumes (decode_fixed n).
Proof. intros b s r E. apply decode_fixed_bytes in E as [E _]. eapply decode_bytes_consumes; exact E. Qed.

Lemma decode_vector_consumes {A} (dec : bytes -> res (A * bytes)) : dec_consumes (decode_vector dec).
Proof.
  intros b x r. unfold decode_vector. destruct (decode_header b) as [[h from]| | |] eqn:E; cbn [bind]; try discriminate.
  apply decode_header_strict in E as (r' & E & L). destruct (negb _); [discriminate|].
  destruct (decode_items _ dec _); cbn [bind]; try discriminate. rewrite E. cbn [bind].
  intros [= _ <-]. exact L.
Qed.

(** decode_bool *)
Lemma decode_bool_rt (v : bool) r : decode_bool (rlp_str (BE (if v then 1 else 0)) ++ r) = Ok (v, r).
Proof.
  unfold decode_bool, decode_u64. rewrite decode_uint_rt; [|lia|destruct v; reflexivity].
  destruct v; reflexivity.
Qed.

Lemma decode_bool_canon b (v : bool) r : wf_bytes b -> decode_bool b = Ok (v, r) ->
  b = rlp_str (BE (if v then 1 else 0)) ++ r /\ wf_bytes r.
Proof.
  intros W. unfold decode_bool. destruct (decode_u64 b) as [[n r']| | |] eqn:E; cbn [bind]; try discriminate.
  destruct (N.ltb_spec 1 n); [discriminate|]. intros [= <- <-].
  apply decode_uint_canon in E as (-> & _ & Wr); [|exact W]. split; [|exact Wr].
  destruct (N.eqb_spec n 0) as [->|]; [reflexivity|]. assert (n = 1) by lia. subst. reflexivity.
Qed.

Lemma decode_bool_safe b : safe (decode_bool b).
Proof.
  unfold decode_bool. apply safe_bind; [apply decode_uint_safe|]. intros [n r] _.
  destruct (_ <? _); [apply safe_err|apply safe_ok].
Qed.

(** ** RLP is uniquely decodable *)

Fixpoint item_size (x : item) : nat :=
  match x with
  | Str _ => 1
  | Lst l => S (list_sum (map item_size l))
  end.

Lemma RLP_ne x : RLP x <> [].
Proof. destruct x; cbn [RLP]; [apply rlp_str_ne|apply rlp_lst_ne]. Qed.

Lemma item_ok_lst l : item_ok (Lst l) <-> Forall item_ok l /\ blen (concat (map RLP l)) < 2 ^ 64.
Proof.
  cbn [item_ok]. assert (H : forall l, (fix all (l : list item) : Prop :=
                match l with [] => True | y :: t => item_ok y /\ all t end) l <-> Forall item_ok l).
  { clear l. induction l as [|y t IH]; [split; [constructor|trivial]|].
    rewrite Forall_cons_iff, <- IH. reflexivity. }
  rewrite H. reflexivity.
Qed.

Lemma RLP_wf x : item_ok x -> wf_bytes (RLP x).
Proof.
  assert (H : forall k x, (item_size x <= k)%nat -> item_ok x -> wf_bytes (RLP x)).
  { clear x. induction k as [|k IH]; intros x Hk Hx.
    - destruct x; cbn in Hk; lia.
    - destruct x as [s|l]; cbn [RLP].
      + destruct Hx as [W B]. rewrite rlp_str_alt. destruct (needs_header s); [|exact W].
        apply wf_app; split; [|exact W]. apply hdr_wf; [lia|lia|exact B].
      + apply item_ok_lst in Hx as [Hl B]. unfold rlp_lst. apply wf_app; split.
        * apply hdr_wf; [lia|lia|exact B].
        * clear B. cbn [item_size] in Hk. induction Hl as [|y t Hy Ht IHl]; [constructor|].
          cbn [map concat list_sum fold_right] in *. unfold list_sum in *. cbn [fold_right] in Hk.
          apply wf_app; split; [apply IH; [lia|assumption]|apply IHl; lia]. }
  intros Hx. now apply (H (item_size x)).
Qed.

Theorem RLP_prefix_free x y r r' : item_ok x -> item_ok y ->
  RLP x ++ r = RLP y ++ r' -> x = y /\ r = r'.
Proof.
  assert (H : forall k x y r r', (item_size x <= k)%nat -> item_ok x -> item_ok y ->
     RLP x ++ r = RLP y ++ r' -> x = y /\ r = r').
  { clear. induction k as [|k IH]; intros x y r r' Hk Hx Hy E.
    - destruct x; cbn in Hk; lia.
    - destruct x as [s|l], y as [s'|l']; cbn [RLP] in E.
      + destruct Hx as [_ B], Hy as [_ B'].
        pose proof (decode_bytes_rt s r B) as D. rewrite E, (decode_bytes_rt s' r' B') in D.
        injection D as -> ->. auto.
      + destruct Hx as [_ B]. apply item_ok_lst in Hy as [_ B'].
        pose proof (decode_bytes_rt s r B) as D. rewrite E in D. unfold decode_bytes in D.
        rewrite decode_list_header in D by exact B'. discriminate.
      + destruct Hy as [_ B]. apply item_ok_lst in Hx as [_ B'].
        pose proof (decode_bytes_rt s' r' B) as D. rewrite <- E in D. unfold decode_bytes in D.
        rewrite decode_list_header in D by exact B'. discriminate.
      + apply item_ok_lst in Hx as [Hl B], Hy as [Hl' B'].
        pose proof (decode_list_header _ r B) as D. rewrite E, (decode_list_header _ r' B') in D.
        injection D as D1 D2.
        assert (E2 : concat (map RLP l) = concat (map RLP l') /\ r = r').
        { apply app_eq_length in D2 as [-> ->]; auto. unfold blen in D1. lia. }
        destruct E2 as [E2 ->]. split; [|reflexivity]. f_equal.
        clear -IH Hk Hl Hl' E2. cbn [item_size] in Hk.
        revert l' Hl' E2. induction Hl as [|x t Hx Ht IHl]; intros l' Hl' E2.
        * destruct l' as [|y t']; [reflexivity|]. cbn [map concat] in E2. pose proof (RLP_ne y).
          destruct (RLP y); [congruence|discriminate].
        * destruct Hl' as [|y t' Hy Ht'].
          { cbn [map concat] in E2. pose proof (RLP_ne x). destruct (RLP x); [congruence|discriminate]. }
          cbn [map concat] in *. unfold list_sum in *. cbn [fold_right] in Hk.
          apply IH in E2 as [-> E2]; [|lia|assumption|assumption].
          f_equal. apply IHl; [lia|assumption|assumption]. }
  intros. eapply (H (item_size x)); eauto.
Qed.

Corollary RLP_inj x y : item_ok x -> item_ok y -> RLP x = RLP y -> x = y.
Proof. intros Hx Hy E. apply (RLP_prefix_free x y [] []); auto. now rewrite E. Qed.

Lemma item_ok_Num n : n < 2 ^ 256 -> item_ok (Num n).
Proof.
  intros H. split; [apply BE_wf|]. rewrite BE_blen. pose proof (byte_len_u256 n H).
  change (2 ^ 64) with 18446744073709551616. lia.
Qed.
