From Verif Require Import Base BaseFacts ChainModel UtilModel UtilSpec UtilProofs PrecompileModel PrecompileSpec EvmModel.

Lemma skipn_skipn {A} i j (l : list A) : skipn i (skipn j l) = skipn (i + j) l.
Proof. revert l. induction j as [|j IH]; intros l; [now rewrite Nat.add_0_r|]. destruct l as [|a l]; [now rewrite !skipn_nil|]. rewrite Nat.add_succ_r. apply IH. Qed.
Lemma skipn_zeros j k : skipn j (zeros k) = zeros (k - j).
Proof. unfold zeros. revert j. induction k as [|k IH]; intros [|j]; try reflexivity. cbn. apply IH. Qed.
Lemma firstn_zeros j k : firstn j (zeros k) = zeros (Nat.min j k).
Proof. unfold zeros. revert j. induction k as [|k IH]; intros [|j]; try reflexivity. cbn. f_equal. apply IH. Qed.
Lemma zeros_length k : length (zeros k) = k.
Proof. apply repeat_length. Qed.
(** Reading [n] bytes at [p] of a string padded with enough zeros. *)
Lemma read_padded l k p n : (p + n <= length l + k)%nat -> firstn n (skipn p (l ++ zeros k)) = firstn n (skipn p l ++ zeros n).
Proof.
  intros H. rewrite skipn_app, skipn_zeros, !firstn_app, !firstn_zeros. f_equal. f_equal. rewrite skipn_length. lia.
Qed.
Lemma field_padded input k pos n : (N.to_nat pos + N.to_nat n <= length input + k)%nat -> firstn (N.to_nat n) (skipn (N.to_nat pos) (input ++ zeros k)) = field input pos n.
Proof. intros H. unfold field. now apply read_padded. Qed.
Lemma field_skip input j pos n : field (skipn j input) pos n = field input (N.of_nat j + pos) n.
Proof. unfold field. rewrite skipn_skipn. do 4 f_equal. lia. Qed.
Lemma field_length input pos n : length (field input pos n) = N.to_nat n.
Proof. unfold field. rewrite firstn_length, app_length, zeros_length. lia. Qed.
Lemma field_wf input pos n : wf_bytes input -> wf_bytes (field input pos n).
Proof. intros H. unfold field. apply wf_firstn, wf_app. split; [now apply wf_skipn|apply wf_zeros]. Qed.
Lemma be_to_N_zeros_app k b : be_to_N (zeros k ++ b) = be_to_N b.
Proof. rewrite be_to_N_app. replace (be_to_N (zeros k)) with 0; [lia|]. induction k as [|k IH]; [reflexivity|]. change (zeros (S k)) with (0 :: zeros k). rewrite be_to_N_cons, <- IH. lia. Qed.

(** The head of the exponent *)
Lemma exp_head_ok input bl el : wf_bytes input ->
  let v := input ++ zeros (96 - length input) in
  exp_head (skipn 96 v) (length input <? 96)%nat (if (length input <? 96)%nat then v else []) bl el = Some (be_to_N (field input (96 + bl) (N.min el 32))).
Proof.
  intros Hw v. unfold exp_head.
  assert (Er : skipn 96 v = skipn 96 input).
  { unfold v. rewrite skipn_app, skipn_zeros. replace (96 - length input - (96 - length input))%nat with 0%nat by lia. apply app_nil_r. }
  rewrite Er. set (rest := skipn 96 input).
  assert (Lr : length rest = (length input - 96)%nat) by apply skipn_length.
  destruct (N.ltb_spec bl (blen rest)) as [Hb|Hb].
  2: { f_equal. replace (field input (96 + bl) (N.min el 32)) with (zeros (N.to_nat (N.min el 32)) ++ []); [now rewrite be_to_N_zeros_app|].
       unfold field. rewrite (skipn_all2 input) by (unfold blen in Hb; lia). cbn [app]. rewrite firstn_zeros, Nat.min_id, app_nil_r. reflexivity. }
  assert (Hlong : (96 < length input)%nat) by (unfold blen in Hb; lia).
  destruct (Nat.ltb_spec (length input) 96) as [|_]; [lia|].
  set (e := skipn (N.to_nat bl) rest).
  destruct (right_pad_spec (Outside e) 32 [] I) as (b1 & E1). cbn [view_of] in E1.
  assert (Hbuf : (length e < 32)%nat -> b1 = e ++ zeros (32 - length e)).
  { intros He. unfold right_pad in E1. cbn [view_of] in E1. destruct (Nat.leb_spec 32 (length e)); [lia|].
    destruct (_ <? _)%nat; injection E1 as X Y; congruence. }
  rewrite E1. cbn [orb].
  assert (Hf : forall n, (N.to_nat n <= 32)%nat -> firstn (N.to_nat n) (e ++ zeros (32 - length e)) = field input (96 + bl) n).
  { intros n Hn. unfold field, e, rest. rewrite skipn_skipn. replace (N.to_nat (96 + bl)) with (96 + N.to_nat bl)%nat by lia. replace (N.to_nat bl + 96)%nat with (96 + N.to_nat bl)%nat by lia.
    rewrite !firstn_app, !firstn_zeros. f_equal. f_equal. lia. }
  destruct (N.ltb_spec el 32) as [Hel|Hel].
  - rewrite N.min_l by lia. rewrite <- (Hf el) by lia. destruct (Nat.ltb_spec (length e) 32) as [He|He].
    + rewrite (Hbuf He). set (b := e ++ zeros (32 - length e)). assert (Lb : length b = 32%nat) by (unfold b; rewrite app_length, zeros_length; lia).
      assert (Hsrc : source_ok b (Inside 0 (N.to_nat el))) by (cbn; lia).
      assert (Hv : view_of b (Inside 0 (N.to_nat el)) = firstn (N.to_nat el) b) by reflexivity.
      destruct (left_pad_spec (Inside 0 (N.to_nat el)) 32 b) as (b2 & E2); [exact Hsrc|left; lia|].
      rewrite E2, Hv. rewrite firstn_all2 by (rewrite app_length, zeros_length, firstn_length; lia). now rewrite be_to_N_zeros_app.
    + destruct (left_pad_spec (Outside (firstn (N.to_nat el) (e ++ zeros (32 - length e)))) 32 b1) as (b2 & E2); [exact I|exact I|].
      rewrite E2. cbn [view_of]. rewrite firstn_all2 by (rewrite app_length, zeros_length, firstn_length; lia). now rewrite be_to_N_zeros_app.
  - rewrite N.min_r by lia. change 32%nat with (N.to_nat 32). rewrite Hf by lia. reflexivity.
Qed.

Lemma pow_2_64 : 2 ^ 64 = 18446744073709551616. Proof. reflexivity. Qed.
Lemma pow_2_62 : 2 ^ 62 = 4611686018427387904. Proof. reflexivity. Qed.
Lemma pow_2_256 : 2 ^ 256 = 2 ^ 64 * 2 ^ 64 * 2 ^ 64 * 2 ^ 64. Proof. reflexivity. Qed.

Lemma complexity198_ok x : x < 2 ^ 64 -> mult_complexity_eip198 x = complexity198 x /\ complexity198 x < 2 ^ 128.
Proof.
  intros H. unfold mult_complexity_eip198, complexity198, w256, add256, sub256.
  assert (Hx : x * x < 2 ^ 128) by (change (2 ^ 128) with (2 ^ 64 * 2 ^ 64); nia). rewrite N.pow_2_r.
  set (y := x * x) in *. assert (P : 2 ^ 128 < 2 ^ 256) by reflexivity. assert (P0 : 2 ^ 256 <> 0) by discriminate.
  rewrite (N.mod_small y) by lia.
  destruct (N.leb_spec x 64) as [E|E]; [auto|].
  assert (Q1 : y / 4 <= y) by (apply N.div_le_upper_bound; lia). assert (Q2 : y / 16 <= y) by (apply N.div_le_upper_bound; lia).
  assert (P1 : 2 ^ 128 + 480 * 2 ^ 64 < 2 ^ 256) by reflexivity.
  assert (Q3 : 4 * (y / 4) <= y < 4 * (y / 4) + 4). { pose proof (N.div_mod y 4 ltac:(lia)). pose proof (N.mod_lt y 4 ltac:(lia)). lia. }
  assert (Q4 : 16 * (y / 16) <= y < 16 * (y / 16) + 16). { pose proof (N.div_mod y 16 ltac:(lia)). pose proof (N.mod_lt y 16 ltac:(lia)). lia. }
  destruct (N.leb_spec x 1024) as [E2|E2].
  - rewrite (N.mod_small (96 * x)) by lia. rewrite (N.mod_small (y / 4 + 96 * x)) by lia.
    replace (y / 4 + 96 * x + 2 ^ 256 - 3072) with (y / 4 + 96 * x - 3072 + 1 * 2 ^ 256) by lia. rewrite N.mod_add by exact P0. rewrite N.mod_small by lia.
    split; [reflexivity|]. assert (Y : y <= 1024 * 1024) by (unfold y; nia). assert (P3 : 1024 * 1024 * 2 < 2 ^ 128) by reflexivity. lia.
  - rewrite (N.mod_small (480 * x)) by lia. rewrite (N.mod_small (y / 16 + 480 * x)) by lia.
    replace (y / 16 + 480 * x + 2 ^ 256 - 199680) with (y / 16 + 480 * x - 199680 + 1 * 2 ^ 256) by lia. rewrite N.mod_add by exact P0. rewrite N.mod_small by lia.
    split; [reflexivity|]. assert (P3 : 2 ^ 128 = 16 * 2 ^ 124) by reflexivity. assert (P4 : 2 ^ 124 + 480 * 2 ^ 64 < 2 ^ 128) by reflexivity. lia.
Qed.
Lemma complexity2565_ok x : x < 2 ^ 64 -> mult_complexity_eip2565 x = complexity2565 x /\ complexity2565 x < 2 ^ 128.
Proof.
  intros H. unfold mult_complexity_eip2565, complexity2565, w256. rewrite N.pow_2_r.
  assert (P : 2 ^ 128 < 2 ^ 256) by reflexivity. assert (P2 : 2 ^ 64 + 7 < 2 ^ 256) by reflexivity. rewrite (N.mod_small (x + 7)) by lia.
  assert (Hw : (x + 7) / 8 < 2 ^ 64). { apply N.div_lt_upper_bound; [lia|]. assert (2 ^ 64 + 7 < 8 * 2 ^ 64) by reflexivity. lia. }
  assert (Hm : (x + 7) / 8 * ((x + 7) / 8) < 2 ^ 128) by (change (2 ^ 128) with (2 ^ 64 * 2 ^ 64); nia). rewrite N.mod_small by lia. auto.
Qed.

Lemma bit_len_ok h : h < 2 ^ 256 -> let b := 256 - clz 256 h in (if 1 <? b then b - 1 else 0) = (if h =? 0 then 0 else N.log2 h) /\ b <= 256.
Proof.
  intros H b. unfold b, clz. assert (Hs : N.size h <= 256) by now apply N_size_le_iff. replace (256 - (256 - N.size h)) with (N.size h) by lia. split; [|exact Hs].
  destruct (N.eqb_spec h 0) as [->|E]; [reflexivity|]. rewrite N.size_log2 by exact E. destruct (N.ltb_spec 1 (N.succ (N.log2 h))); lia.
Qed.

Lemma complexity198_ge x : 1 <= x -> x <= complexity198 x.
Proof.
  intros H. unfold complexity198. rewrite N.pow_2_r. destruct (N.leb_spec x 64); [nia|]. 
  destruct (N.leb_spec x 1024).
  - pose proof (N.div_mod (x * x) 4 ltac:(lia)). pose proof (N.mod_lt (x * x) 4 ltac:(lia)). nia.
  - pose proof (N.div_mod (x * x) 16 ltac:(lia)). pose proof (N.mod_lt (x * x) 16 ltac:(lia)). nia.
Qed.
Lemma complexity198_huge x : 2 ^ 64 <= x -> 20 * 2 ^ 64 <= complexity198 x.
Proof.
  intros H. unfold complexity198. rewrite N.pow_2_r. destruct (N.leb_spec x 64); [rewrite pow_2_64 in *; lia|]. destruct (N.leb_spec x 1024); [rewrite pow_2_64 in *; lia|].
  pose proof (N.div_mod (x * x) 16 ltac:(lia)). pose proof (N.mod_lt (x * x) 16 ltac:(lia)). rewrite pow_2_64 in *. nia.
Qed.
Lemma complexity2565_ge x : 1 <= x -> 1 <= complexity2565 x.
Proof. intros H. unfold complexity2565. rewrite N.pow_2_r. assert (1 <= (x + 7) / 8) by (apply N.div_le_lower_bound; lia). nia. Qed.
Lemma complexity2565_huge x : 2 ^ 64 <= x -> 3 * 2 ^ 64 <= complexity2565 x.
Proof. intros H. unfold complexity2565. rewrite N.pow_2_r. rewrite pow_2_64 in *. assert (2 ^ 61 <= (x + 7) / 8) by (apply N.div_le_lower_bound; [lia|]; change (8 * 2 ^ 61) with 18446744073709551616; lia). change (2 ^ 61) with 2305843009213693952 in *. nia. Qed.

Lemma field32 input pos : wf_bytes input -> be_to_N (field input pos 32) < 2 ^ 256.
Proof. intros H. pose proof (be_to_N_bound _ (field_wf input pos 32 H)) as B. unfold blen in B. rewrite field_length in B. exact B. Qed.

Theorem modexp_gas_ok rev input : wf_bytes input ->
  exists g, expmod_gas input rev = Some g /\ N.min g (2 ^ 62) = N.min (modexp_gas rev input) (2 ^ 62) /\ g < 2 ^ 64.
Proof.
  intros Hw. unfold expmod_gas.
  assert (E1 : right_pad (Outside input) 96 [] = Some (input ++ zeros (96 - length input), if (length input <? 96)%nat then input ++ zeros (96 - length input) else [])).
  { destruct (right_pad_spec (Outside input) 96 [] I) as (b & E). cbn [view_of] in E. rewrite E. f_equal. f_equal.
    unfold right_pad in E. cbn [view_of] in E. destruct (Nat.leb_spec 96 (length input)) as [L|L].
    - injection E as _ <-. now destruct (Nat.ltb_spec (length input) 96); [lia|].
    - destruct (Nat.ltb_spec (length input) 96) as [_|]; [|lia]. destruct (_ <? _)%nat; injection E as X Y; congruence. }
  rewrite E1. set (v := input ++ zeros (96 - length input)).
  assert (F : forall pos, (pos + 32 <= 96)%nat -> firstn 32 (skipn pos v) = field input (N.of_nat pos) 32).
  { intros pos Hp. unfold v. change 32%nat with (N.to_nat 32). replace pos with (N.to_nat (N.of_nat pos)) at 1 by lia. apply field_padded. lia. }
  change (firstn 32 v) with (firstn 32 (skipn 0 v)). rewrite !F by lia. cbn [N.of_nat]. change (N.of_nat 32) with 32. change (N.of_nat 64) with 64.
  change (N.of_nat 0) with 0. change (N.pos (Pos.of_succ_nat 31)) with 32. change (N.pos (Pos.of_succ_nat 63)) with 64.
  unfold modexp_gas. set (bl := be_to_N (field input 0 32)). set (el := be_to_N (field input 32 32)). set (ml := be_to_N (field input 64 32)).
  set (h := be_to_N (field input (96 + bl) (N.min el 32))). set (it := N.max (adjusted_exponent_length el h) 1).
  assert (Hit : 1 <= it) by (unfold it; lia).
  assert (Hh : h < 2 ^ 256).
  { pose proof (be_to_N_bound _ (field_wf input (96 + bl) (N.min el 32) Hw)) as B. unfold blen in B. rewrite field_length in B. fold h in B. eapply N.lt_le_trans; [exact B|].
    rewrite pow256_2. apply N.pow_le_mono_r; lia. }
  destruct ((bl =? 0) && (ml =? 0)) eqn:E0.
  { apply andb_true_iff in E0 as (B0 & M0). apply N.eqb_eq in B0, M0. exists (if rev <? EVMC_BERLIN then 0 else 200). split; [reflexivity|]. rewrite B0, M0. destruct (rev <? EVMC_BERLIN); split; reflexivity. }
  assert (Hx : 1 <= N.max bl ml).
  { apply andb_false_iff in E0 as [E0|E0]; apply N.eqb_neq in E0; lia. }
  destruct ((2 ^ 64 <=? bl) || (2 ^ 64 <=? el) || (2 ^ 64 <=? ml)) eqn:E2.
  { exists kUint64Max. split; [reflexivity|]. split; [|reflexivity]. unfold kUint64Max. rewrite (N.min_r (2 ^ 64 - 1)) by (rewrite pow_2_64, pow_2_62; lia). symmetry. apply N.min_r.
    assert (H3 : 2 ^ 64 <= N.max bl ml \/ 7 * 2 ^ 64 <= it).
    { apply orb_true_iff in E2 as [E2|E2]; [apply orb_true_iff in E2 as [E2|E2]|]; apply N.leb_le in E2; [left; lia| |left; lia]. right. unfold it, adjusted_exponent_length. rewrite pow_2_64 in *. lia. }
    pose proof (complexity198_ge _ Hx) as G1. pose proof (complexity2565_ge _ Hx) as G2. pose proof (complexity198_huge (N.max bl ml)) as G3. pose proof (complexity2565_huge (N.max bl ml)) as G4.
    set (x := N.max bl ml) in *. clearbody x it. rewrite pow_2_64, pow_2_62 in *.
    destruct (rev <? EVMC_BERLIN); [apply N.div_le_lower_bound; [lia|]|etransitivity; [|apply N.le_max_r]; apply N.div_le_lower_bound; [lia|]]; destruct H3 as [H3|H3]; [specialize (G3 H3)| |specialize (G4 H3)|]; nia. }
  apply orb_false_iff in E2 as (E2 & Hm). apply orb_false_iff in E2 as (Hb & He). apply N.leb_gt in Hb, He, Hm.
  pose proof (exp_head_ok input bl el Hw) as EH; cbv zeta in EH; fold v h in EH. match goal with |- context [exp_head ?a ?b ?c ?d ?e] => replace (exp_head a b c d e) with (Some h) by (symmetry; exact EH) end.
  destruct (bit_len_ok h Hh) as (Ebl & Lbl); cbv zeta in Ebl, Lbl; set (b := 256 - clz 256 h) in *.
  assert (Eit : (let a := if 32 <? el then w256 (8 * (el - 32)) else 0 in let a := if 1 <? b then add256 a (b - 1) else a in if a <? 1 then 1 else a) = it /\ it < 2 ^ 68).
  { assert (P : 8 * 2 ^ 64 + 256 < 2 ^ 68) by reflexivity. assert (P' : 2 ^ 68 < 2 ^ 256) by reflexivity.
    assert (Ea : (if 32 <? el then w256 (8 * (el - 32)) else 0) = 8 * (el - 32)) by (unfold w256; destruct (N.ltb_spec 32 el); [apply N.mod_small; lia|lia]).
    cbv zeta. rewrite Ea. unfold it, adjusted_exponent_length. rewrite <- Ebl. unfold add256. destruct (N.ltb_spec 1 b).
    - rewrite N.mod_small by lia. destruct (N.ltb_spec (8 * (el - 32) + (b - 1)) 1); lia.
    - destruct (N.ltb_spec (8 * (el - 32)) 1); lia. }
  destruct Eit as (Eit & Lit). cbv zeta in Eit. rewrite Eit. rewrite (N.max_comm ml bl).
  assert (Lx : N.max bl ml < 2 ^ 64) by lia. destruct (complexity198_ok _ Lx) as (-> & L1). destruct (complexity2565_ok _ Lx) as (-> & L2).
  assert (PP : 2 ^ 128 * 2 ^ 68 < 2 ^ 256) by reflexivity.
  unfold w256. rewrite (N.mod_small (complexity198 _ * it)) by nia. rewrite (N.mod_small (complexity2565 _ * it)) by nia.
  destruct (rev <? EVMC_BERLIN).
  all: match goal with |- context [2 ^ 64 <=? ?g] => destruct (N.leb_spec (2 ^ 64) g) as [Hg|Hg] end.
  all: eexists; split; [reflexivity|]; unfold kUint64Max; split; rewrite ?pow_2_64, ?pow_2_62 in *; lia.
Qed.

(** ** The other contracts *)
Theorem gas_ok rev input n first price : wf_bytes input -> blen input < 2 ^ 48 -> In (n, first, price) (gas_table rev input) ->
  exists g, precompile_gas n input rev = Some g /\ N.min g (2 ^ 62) = N.min price (2 ^ 62) /\ g < 2 ^ 64 /\ (price < 2 ^ 62 -> g = price).
Proof.
  intros Hw Hl H.
  assert (Hwd : (blen input + 31) / 32 <= blen input + 31) by (apply N.div_le_upper_bound; lia).
  assert (Hk : blen input / 192 <= blen input) by (apply N.div_le_upper_bound; lia).
  assert (P48 : 2 ^ 48 = 281474976710656) by reflexivity.
  assert (Sm : forall p, p < 2 ^ 62 -> N.min p (2 ^ 62) = N.min p (2 ^ 62) /\ p < 2 ^ 64 /\ (p < 2 ^ 62 -> p = p)) by (intros p Hp; rewrite pow_2_62, pow_2_64 in *; repeat split; lia).
  assert (M : forall p, p < 2 ^ 64 -> p mod 2 ^ 64 = p) by (intros; now apply N.mod_small).
  cbn [gas_table In] in H. unfold words in H.
  repeat (destruct H as [H|H]; [injection H as <- <- <-|]); [| | | | | | | | |contradiction]; cbn [precompile_gas].
  - eexists. split; [reflexivity|]. apply Sm. reflexivity.
  - unfold sha256_gas, w64. rewrite !M by (rewrite pow_2_64; lia). eexists. split; [reflexivity|]. apply Sm. rewrite pow_2_62. lia.
  - unfold rip160_gas, w64. rewrite !M by (rewrite pow_2_64; lia). eexists. split; [reflexivity|]. apply Sm. rewrite pow_2_62. lia.
  - unfold id_gas, w64. rewrite !M by (rewrite pow_2_64; lia). eexists. split; [reflexivity|]. apply Sm. rewrite pow_2_62. lia.
  - destruct (modexp_gas_ok rev input Hw) as (g & E & A & B). exists g. split; [exact E|]. split; [exact A|]. split; [exact B|]. intros Hp. lia.
  - unfold bn_add_gas. rewrite N.leb_antisym. eexists. split; [reflexivity|]. destruct (rev <? EVMC_ISTANBUL); apply Sm; reflexivity.
  - unfold bn_mul_gas. rewrite N.leb_antisym. eexists. split; [reflexivity|]. destruct (rev <? EVMC_ISTANBUL); apply Sm; reflexivity.
  - unfold snarkv_gas, w64. rewrite N.leb_antisym. rewrite !M by (rewrite pow_2_64; lia). eexists. split; [reflexivity|].
    destruct (rev <? EVMC_ISTANBUL); cbn [negb]; [rewrite (N.add_comm (80000 * _))|rewrite (N.add_comm (34000 * _))]; apply Sm; rewrite pow_2_62; lia.
  - unfold blake2_f_gas. destruct (N.ltb_spec (blen input) 4) as [|L4]; [eexists; split; [reflexivity|apply Sm; reflexivity]|]. eexists. split; [reflexivity|].
    assert (E4 : field input 0 4 = firstn 4 input).
    { unfold field. change (N.to_nat 4) with 4%nat. change (skipn (N.to_nat 0) input) with input. rewrite firstn_app. unfold blen in L4. replace (4 - length input)%nat with 0%nat by lia. apply app_nil_r. }
    rewrite E4. apply Sm. pose proof (be_to_N_bound _ (wf_firstn 4 input Hw)) as B. unfold blen in B. rewrite firstn_length in B. eapply N.lt_trans; [exact B|]. unfold blen in L4. replace (Nat.min 4 (length input)) with 4%nat by lia. reflexivity.
Qed.

(** ** The active contracts *)
Theorem active_ok rev input a : is_precompiled rev a = true <-> exists first price, In (a, first, price) (gas_table rev input) /\ first <= rev.
Proof.
  unfold is_precompiled, number_of_precompiles. split.
  - intros H. destruct (N.eqb_spec a 0) as [|E]; [discriminate|]. apply N.leb_le in H.
    assert (Ha : a <= 9) by (destruct (_ <=? _); [exact H|destruct (_ <=? _); lia]).
    assert (C : a = 1 \/ a = 2 \/ a = 3 \/ a = 4 \/ a = 5 \/ a = 6 \/ a = 7 \/ a = 8 \/ a = 9) by lia.
    assert (B5 : 5 <= a -> EVMC_BYZANTIUM <= rev).
    { intros L. destruct (N.leb_spec EVMC_ISTANBUL rev) as [X|X]; [unfold EVMC_ISTANBUL, EVMC_BYZANTIUM in *; lia|]. destruct (N.leb_spec EVMC_BYZANTIUM rev); lia. }
    assert (B9 : 9 <= a -> EVMC_ISTANBUL <= rev).
    { intros L. destruct (N.leb_spec EVMC_ISTANBUL rev) as [X|X]; [exact X|]. destruct (EVMC_BYZANTIUM <=? rev); lia. }
    cbn [gas_table In]. destruct C as [->|[->|[->|[->|[->|[->|[->|[->| ->]]]]]]]]; eexists; eexists;
      (split; [repeat (first [left; reflexivity|right])|first [apply B9; lia|apply B5; lia|apply N.le_0_l]]).
  - intros (f & p & H & Hf). cbn [gas_table In] in H. 
    repeat (destruct H as [H|H]; [injection H as <- <- <-; unfold EVMC_FRONTIER, EVMC_BYZANTIUM, EVMC_ISTANBUL in *; cbn; destruct (N.leb_spec 7 rev); try reflexivity; destruct (N.leb_spec 4 rev); try reflexivity; lia|]). contradiction.
Qed.

(** ** Modular exponentiation *)
Lemma low64 input pos : wf_bytes input -> be_to_N (field input pos 32) < 2 ^ 64 ->
  be_to_N (firstn 8 (skipn 24 (field input pos 32))) = be_to_N (field input pos 32).
Proof.
  intros Hw Hs. set (f := field input pos 32) in *. assert (Lf : length f = 32%nat) by apply field_length. assert (Wf : wf_bytes f) by now apply field_wf.
  rewrite (firstn_all2 (skipn 24 f)) by (rewrite skipn_length; lia).
  pose proof (firstn_skipn 24 f) as E. rewrite <- E in Hs at 1. rewrite <- E at 2. rewrite be_to_N_app in *. set (hi := be_to_N (firstn 24 f)) in *. 
  assert (Hb : blen (skipn 24 f) = 8) by (unfold blen; rewrite skipn_length; lia). rewrite Hb in *. change (256 ^ 8) with (2 ^ 64) in *.
  assert (hi = 0) by (rewrite pow_2_64 in *; lia). lia.
Qed.
Theorem modexp_ok input : wf_bytes input ->
  let bl := be_to_N (field input 0 32) in let el := be_to_N (field input 32 32) in let ml := be_to_N (field input 64 32) in
  (ml = 0 \/ bl + el + ml < 2 ^ 64) -> expmod_run input = Some (modexp input).
Proof.
  intros Hw bl el ml Hs. unfold expmod_run.
  assert (E1 : right_pad (Outside input) 96 [] = Some (input ++ zeros (96 - length input), if (length input <? 96)%nat then input ++ zeros (96 - length input) else [])).
  { destruct (right_pad_spec (Outside input) 96 [] I) as (b & E). cbn [view_of] in E. rewrite E. f_equal. f_equal.
    unfold right_pad in E. cbn [view_of] in E. destruct (Nat.leb_spec 96 (length input)) as [L|L].
    - injection E as _ <-. now destruct (Nat.ltb_spec (length input) 96); [lia|].
    - destruct (Nat.ltb_spec (length input) 96) as [_|]; [|lia]. destruct (_ <? _)%nat; injection E as X Y; congruence. }
  rewrite E1. set (v := input ++ zeros (96 - length input)).
  assert (F8 : forall pos, (pos + 32 <= 96)%nat -> firstn 8 (skipn (24 + pos) v) = firstn 8 (skipn 24 (field input (N.of_nat pos) 32))).
  { intros pos Hp. assert (F : firstn 32 (skipn pos v) = field input (N.of_nat pos) 32).
    { unfold v. change 32%nat with (N.to_nat 32). replace pos with (N.to_nat (N.of_nat pos)) at 1 by lia. apply field_padded. lia. }
    rewrite <- F, <- skipn_skipn. rewrite skipn_firstn_comm, firstn_firstn. reflexivity. }
  change (skipn 24 v) with (skipn (24 + 0) v). change (skipn 56 v) with (skipn (24 + 32) v). change (skipn 88 v) with (skipn (24 + 64) v). rewrite !F8 by lia.
  change (N.of_nat 0) with 0. change (N.of_nat 32) with 32. change (N.of_nat 64) with 64.
  unfold modexp. cbv zeta. fold bl el ml.
  destruct (N.eq_dec ml 0) as [M0|M0].
  { rewrite (low64 input 64 Hw) by (fold ml; rewrite M0; reflexivity). fold ml. rewrite M0. cbn [N.eqb]. reflexivity. }
  destruct Hs as [Hs|Hs]; [contradiction|].
  rewrite (low64 input 0 Hw) by (fold bl; lia). rewrite (low64 input 32 Hw) by (fold el; lia). rewrite (low64 input 64 Hw) by (fold ml; lia). fold bl el ml.
  destruct (N.eqb_spec ml 0) as [|_]; [contradiction|].
  assert (Er : skipn 96 v = skipn 96 input).
  { unfold v. rewrite skipn_app, skipn_zeros. replace (96 - length input - (96 - length input))%nat with 0%nat by lia. apply app_nil_r. }
  rewrite Er. unfold w64. rewrite N.mod_small by exact Hs. set (sz := N.to_nat (bl + el + ml)).
  set (src := if (length input <? 96)%nat then Inside 96 (length (skipn 96 input)) else Outside (skipn 96 input)).
  set (buf := if (length input <? 96)%nat then v else []).
  assert (Hsrc : source_ok buf src /\ view_of buf src = skipn 96 input).
  { unfold src, buf. destruct (Nat.ltb_spec (length input) 96) as [L|L]; [|split; [exact I|reflexivity]]. rewrite (skipn_all2 input) by lia. cbn. unfold v. rewrite app_length, zeros_length. split; [lia|reflexivity]. }
  destruct Hsrc as (Hso & Hv). destruct (right_pad_spec src sz buf Hso) as (b2 & E2). rewrite E2, Hv. set (r := skipn 96 input). set (w := r ++ zeros (sz - length r)).
  assert (Lw : blen w <? bl + el + ml = false). { apply N.ltb_ge. unfold w, blen. rewrite app_length, zeros_length. lia. }
  rewrite Lw.
  assert (G : forall pos n, pos + n <= bl + el + ml -> firstn (N.to_nat n) (skipn (N.to_nat pos) w) = field input (96 + pos) n).
  { intros pos n Hp. unfold w. rewrite field_padded by lia. unfold r. rewrite (field_skip input 96 pos n). reflexivity. }
  pose proof (G 0 bl ltac:(lia)) as G1. change (skipn (N.to_nat 0) w) with w in G1. rewrite N.add_0_r in G1. rewrite G1.
  rewrite (G bl el) by lia. rewrite skipn_skipn. replace (N.to_nat el + N.to_nat bl)%nat with (N.to_nat (bl + el)) by lia. rewrite (G (bl + el) ml) by lia.
  rewrite N.add_assoc. destruct (_ =? 0); [|reflexivity]. f_equal.
  clear. induction (N.to_nat ml) as [|k IH]; [reflexivity|]. cbn [be_fixed]. change (0 / 256) with 0. change (0 mod 256) with 0. rewrite <- IH. unfold zeros. clear. induction k as [|k IH]; [reflexivity|]. cbn. now rewrite <- IH.
Qed.
