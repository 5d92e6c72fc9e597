From Coq Require Import String.
From Verif Require Import Base BaseFacts RlpSpec RlpModel RlpProofs EcdsaModel TxModel BlockModel BlockSpec BlockProofs ChainModel ChainSpec.
Open Scope list_scope.

(** ** Fork schedule *)
Lemma scan_le i fs n : revision_scan i fs n <= N.of_nat i.
Proof.
  induction i as [|j IH]; cbn [revision_scan]; [unfold EVMC_FRONTIER; lia|]. destruct (nth j fs None) as [b|]; [destruct (b <=? n)|]; lia.
Qed.
Lemma scan_hit i fs n r : revision_scan i fs n = r -> 0 < r -> exists b, nth (N.to_nat r - 1) fs None = Some b /\ b <= n.
Proof.
  induction i as [|j IH]; cbn [revision_scan]; [unfold EVMC_FRONTIER; lia|]. destruct (nth j fs None) as [b|] eqn:E; [|exact IH].
  destruct (N.leb_spec b n); [|exact IH]. intros <- _. exists b. split; [|exact H]. rewrite <- E. f_equal. lia.
Qed.
Lemma scan_max i fs n j b : (j < i)%nat -> nth j fs None = Some b -> b <= n -> N.of_nat (S j) <= revision_scan i fs n.
Proof.
  induction i as [|k IH]; intros Hj Hn Hb; [lia|]. cbn [revision_scan]. destruct (Nat.eq_dec j k) as [->|E].
  - rewrite Hn. destruct (N.leb_spec b n); lia.
  - destruct (nth k fs None) as [b'|]; [|apply IH; [lia|assumption|assumption]]. destruct (b' <=? n); [lia|]. apply IH; [lia|assumption|assumption].
Qed.

Lemma revision_le c n : revision c n <= 10.
Proof. unfold revision. pose proof (scan_le EVMC_MAX_REVISION (cfg_fork_blocks c) n). unfold EVMC_MAX_REVISION in *. lia. Qed.
Lemma revision_activated c n : activated c (revision c n) n.
Proof.
  unfold activated, activation. destruct (N.eqb_spec (revision c n) 0) as [E|E]; [exists 0; split; [reflexivity|lia]|].
  apply (scan_hit EVMC_MAX_REVISION _ n (revision c n)); [reflexivity|lia].
Qed.
Lemma revision_latest c n r : r <= 10 -> activated c r n -> r <= revision c n.
Proof.
  intros Hr (b & Hb & Hn). unfold activation in Hb. destruct (N.eqb_spec r 0); [lia|].
  pose proof (scan_max EVMC_MAX_REVISION (cfg_fork_blocks c) n (N.to_nat r - 1) b) as H. unfold EVMC_MAX_REVISION in H.
  specialize (H ltac:(lia) Hb Hn). unfold revision, EVMC_MAX_REVISION. lia.
Qed.
Lemma rules_from_rev c r n : r <= 10 -> rules_from c r n <-> r <= revision c n.
Proof.
  intros Hr. split.
  - intros (r' & [H1 H2] & H). apply revision_latest in H; [lia|exact H2].
  - intros H. exists (revision c n). split; [pose proof (revision_le c n); lia|apply revision_activated].
Qed.
Lemma revision_mono c n m : n <= m -> revision c n <= revision c m.
Proof.
  intros H. apply revision_latest; [apply revision_le|]. destruct (revision_activated c n) as (b & Hb & Hn). exists b. split; [exact Hb|lia].
Qed.

Lemma nth_list_set {A} i j (x d : A) l : (i < length l)%nat -> nth j (list_set i x l) d = if (j =? i)%nat then x else nth j l d.
Proof.
  revert i j. induction l as [|y t IH]; intros i j H; [cbn in H; lia|]. destruct i as [|i], j as [|j]; cbn [list_set nth Nat.eqb]; try reflexivity.
  cbn in H. rewrite IH by lia. reflexivity.
Qed.
Lemma length_list_set {A} i (x : A) l : length (list_set i x l) = length l.
Proof. revert i. induction l as [|y t IH]; intros [|i]; cbn; congruence. Qed.

Lemma revision_block_activation c r : length (cfg_fork_blocks c) = 10%nat -> r <= 10 -> revision_block c r = Some (activation c r).
Proof.
  intros Hl Hr. unfold revision_block, activation, EVMC_FRONTIER. destruct (N.eqb_spec r 0); [reflexivity|].
  rewrite (nth_error_nth' (cfg_fork_blocks c) None) by lia. f_equal. f_equal. lia.
Qed.
Lemma set_revision_block_activation c r b r' : length (cfg_fork_blocks c) = 10%nat -> 0 < r <= 10 -> r' <= 10 ->
  activation (set_revision_block c r b) r' = if r' =? r then b else activation c r'.
Proof.
  intros Hl Hr Hr'. unfold set_revision_block. destruct (N.ltb_spec 0 r); [|lia]. unfold activation. cbn [cfg_fork_blocks].
  destruct (N.eqb_spec r' 0).
  - destruct (N.eqb_spec r' r); [lia|reflexivity].
  - rewrite nth_list_set by lia. destruct (Nat.eqb_spec (N.to_nat r' - 1) (N.to_nat (r - 1))); destruct (N.eqb_spec r' r); try lia; reflexivity.
Qed.
Lemma set_revision_block_rest c r b : set_revision_block c 0 b = c /\
  cfg_chain_id (set_revision_block c r b) = cfg_chain_id c /\ cfg_seal_engine (set_revision_block c r b) = cfg_seal_engine c /\
  cfg_muir_glacier (set_revision_block c r b) = cfg_muir_glacier c /\ cfg_dao_block (set_revision_block c r b) = cfg_dao_block c /\
  length (cfg_fork_blocks (set_revision_block c r b)) = length (cfg_fork_blocks c).
Proof. unfold set_revision_block. split; [reflexivity|]. destruct (0 <? r); cbn; rewrite ?length_list_set; auto 6. Qed.

(** ** JSON *)
Lemma jfind_jset j k v k' : jfind (jset j k v) k' = if String.eqb k' k then Some v else jfind j k'.
Proof.
  induction j as [|[a b] t IH]; cbn; [reflexivity|]. destruct (String.eqb_spec k a) as [->|E]; cbn.
  - destruct (String.eqb_spec k' a); reflexivity.
  - destruct (String.eqb_spec k' a) as [->|E']; [|exact IH]. destruct (String.eqb_spec a k); [congruence|reflexivity].
Qed.
Lemma jfind_member j k o k' : jfind (member_to_json j k o) k' = if String.eqb k' k then match o with Some n => Some (JNum (Z.of_N n)) | None => jfind j k' end else jfind j k'.
Proof. unfold member_to_json. destruct o; [apply jfind_jset|]. destruct (String.eqb k' k); reflexivity. Qed.
Lemma jfind_member_other j k o k' : String.eqb k' k = false -> jfind (member_to_json j k o) k' = jfind j k'.
Proof. intros H. now rewrite jfind_member, H. Qed.
Lemma jfind_member_same j k o : jfind (member_to_json j k o) k = match o with Some n => Some (JNum (Z.of_N n)) | None => jfind j k end.
Proof. now rewrite jfind_member, String.eqb_refl. Qed.
Lemma get_uint64_of n : u64 n -> get_uint64 (JNum (Z.of_N n)) = Some n.
Proof. unfold u64. intros H. cbn. f_equal. rewrite Z.mod_small by lia. lia. Qed.

Lemma from_to_json c : cfg_ok c -> from_json (to_json c) = JConfig c.
Proof.
  intros (Hl & Hid & Hf & Hm & Hd). destruct c as [id en fs mg dao]. cbn [cfg_fork_blocks cfg_chain_id cfg_muir_glacier cfg_dao_block] in *.
  do 10 (destruct fs as [|? fs]; [discriminate|]). destruct fs; [|discriminate].
  repeat match goal with H : Forall _ (_ :: _) |- _ => apply Forall_cons_iff in H as [? H] end. clear Hf.
  set (j := to_json _).
  unfold to_json, kJsonForkNames in j. cbn [cfg_chain_id cfg_seal_engine cfg_fork_blocks cfg_muir_glacier cfg_dao_block combine fold_left fst snd] in j.
  set (base := match en with kEthash => _ | kClique => _ | kAuRA => _ | kNoProof => _ end) in j.
  assert (G : forall k x, jfind j k = option_map (fun n => JNum (Z.of_N n)) x -> opt_u64 x -> read_json_config_member j k = Some x).
  { intros k x E Hx. unfold read_json_config_member. rewrite E. destruct x as [n|]; cbn [option_map]; [|reflexivity].
    rewrite get_uint64_of by exact Hx. reflexivity. }
  Ltac jf j := unfold j; repeat (rewrite jfind_member_other by reflexivity).
  Ltac jr j base := jf j; rewrite jfind_member_same; match goal with |- match ?o with _ => _ end = _ => destruct o; [reflexivity|]; cbn [option_map]; repeat (rewrite jfind_member_other by reflexivity); unfold base; match goal with |- context[match ?e with kNoProof => _ | _ => _ end] => destruct e; reflexivity end end.
  assert (C : jfind j "chainId" = Some (JNum (Z.of_N id))) by (jf j; unfold base; destruct en; reflexivity).
  assert (C1 : jfind j "ethash" = match en with kEthash => Some JObject | _ => None end) by (jf j; unfold base; destruct en; reflexivity).
  assert (C2 : jfind j "clique" = match en with kClique => Some JObject | _ => None end) by (jf j; unfold base; destruct en; reflexivity).
  assert (C3 : jfind j "aura" = match en with kAuRA => Some JObject | _ => None end) by (jf j; unfold base; destruct en; reflexivity).
  unfold from_json. rewrite C, C1, C2, C3. unfold kJsonForkNames. cbn [read_members].
  rewrite (G "homesteadBlock"%string o) by (assumption || jr j base). rewrite (G "eip150Block"%string o0) by (assumption || jr j base).
  rewrite (G "eip155Block"%string o1) by (assumption || jr j base). rewrite (G "byzantiumBlock"%string o2) by (assumption || jr j base).
  rewrite (G "constantinopleBlock"%string o3) by (assumption || jr j base). rewrite (G "petersburgBlock"%string o4) by (assumption || jr j base).
  rewrite (G "istanbulBlock"%string o5) by (assumption || jr j base). rewrite (G "berlinBlock"%string o6) by (assumption || jr j base).
  rewrite (G "londonBlock"%string o7) by (assumption || jr j base). rewrite (G "shanghaiBlock"%string o8) by (assumption || jr j base).
  rewrite (G "muirGlacierBlock"%string mg) by (assumption || jr j base). rewrite (G "daoForkBlock"%string dao) by (assumption || jr j base).
  unfold u64 in Hid. rewrite Z.mod_small by lia. rewrite N2Z.id.
  destruct en; reflexivity.
Qed.

Lemma from_json_ext j j' : (forall k, jfind j k = jfind j' k) -> from_json j = from_json j'.
Proof.
  intros H. unfold from_json. rewrite !H. assert (R : forall k, read_json_config_member j k = read_json_config_member j' k).
  { intros k. unfold read_json_config_member. now rewrite H. }
  rewrite !R. replace (read_members j kJsonForkNames) with (read_members j' kJsonForkNames); [reflexivity|].
  generalize kJsonForkNames. induction l as [|k t IH]; cbn [read_members]; [reflexivity|]. now rewrite IH, R.
Qed.
Lemma to_json_inj a b : cfg_ok a -> cfg_ok b -> (forall k, jfind (to_json a) k = jfind (to_json b) k) -> a = b.
Proof. intros Ha Hb E. apply from_json_ext in E. rewrite !from_to_json in E by assumption. congruence. Qed.

Lemma read_members_ok j ks l : read_members j ks = Some l -> length l = length ks /\ Forall opt_u64 l.
Proof.
  revert l. induction ks as [|k t IH]; cbn [read_members]; intros l; [intros [= <-]; auto|].
  destruct (read_json_config_member j k) as [x|] eqn:E; [|discriminate]. destruct (read_members j t) as [l'|]; [|discriminate].
  intros [= <-]. destruct (IH l' eq_refl) as [H1 H2]. split; [cbn; congruence|]. constructor; [|exact H2].
  unfold read_json_config_member in E. destruct (jfind j k) as [v|]; [|injection E as <-; exact I].
  destruct v as [z|b| |]; cbn in E; try discriminate; injection E as <-; cbn; unfold u64; [lia|destruct b; lia].
Qed.
(** Whatever object is read, a successful result is a well-formed config. *)
Lemma from_json_ok j c : from_json j = JConfig c -> cfg_ok c.
Proof.
  unfold from_json. destruct (jfind j "chainId") as [[z| | |]|]; try discriminate.
  destruct (read_members j kJsonForkNames) as [fs|] eqn:E1; [|discriminate].
  destruct (read_json_config_member j "muirGlacierBlock") as [mg|] eqn:E2; [|discriminate].
  destruct (read_json_config_member j "daoForkBlock") as [dao|] eqn:E3; [|discriminate].
  intros [= <-]. apply read_members_ok in E1 as [H1 H2]. 
  assert (S : forall k x, read_json_config_member j k = Some x -> opt_u64 x).
  { intros k x E. destruct (read_members_ok j [k] [x]) as [_ H]; [cbn; now rewrite E|]. now inversion H. }
  unfold cfg_ok. cbn [cfg_fork_blocks cfg_chain_id cfg_muir_glacier cfg_dao_block].
  split; [exact H1|]. split; [unfold u64; lia|]. eauto.
Qed.

(** ** Intrinsic gas *)
Lemma sumN_app a b : sumN (a ++ b) = sumN a + sumN b.
Proof. induction a as [|x a IH]; cbn [sumN fold_right app]; [unfold sumN; lia|]. fold (sumN (a ++ b)). fold (sumN a). rewrite IH. lia. Qed.
Lemma data_gas_split d k : sumN (map (fun b => if b =? 0 then 4 else k) d) =
  N.of_nat (length (filter (fun c => negb (c =? 0)) d)) * k + (blen d - N.of_nat (length (filter (fun c => negb (c =? 0)) d))) * 4
  /\ N.of_nat (length (filter (fun c => negb (c =? 0)) d)) <= blen d.
Proof.
  unfold blen. induction d as [|x d IH]; cbn [map filter length sumN fold_right]; [lia|]. fold (sumN (map (fun b => if b =? 0 then 4 else k) d)).
  destruct IH as [IH1 IH2]. rewrite IH1. set (m := length (filter (fun c => negb (c =? 0)) d)) in *. destruct (x =? 0); cbn [negb length]; nia.
Qed.
Lemma entries_fold al g : let w := fun g e => wrap128 (g + wrap128 (N.of_nat (length (ale_storage_keys e)) * 1900)) in
  sumN (map (fun e => N.of_nat (length (ale_storage_keys e))) al) < 2 ^ 64 ->
  g + 1900 * sumN (map (fun e => N.of_nat (length (ale_storage_keys e))) al) < 2 ^ 128 ->
  fold_left w al g = g + 1900 * sumN (map (fun e => N.of_nat (length (ale_storage_keys e))) al).
Proof.
  intros w. revert g. induction al as [|e al IH]; intros g H H2; cbn [fold_left map sumN fold_right] in *; [lia|].
  fold (sumN (map (fun e => N.of_nat (length (ale_storage_keys e))) al)) in *.
  set (s := sumN (map (fun e => N.of_nat (length (ale_storage_keys e))) al)) in *. set (l := N.of_nat (length (ale_storage_keys e))) in *.
  assert (E : w g e = g + 1900 * l). { unfold w, wrap128. fold l. rewrite !N.mod_small; lia. }
  rewrite E, IH; lia.
Qed.
Lemma entries_sum al : sumN (map (fun e => 2400 + 1900 * N.of_nat (length (ale_storage_keys e))) al)
  = 2400 * N.of_nat (length al) + 1900 * sumN (map (fun e => N.of_nat (length (ale_storage_keys e))) al).
Proof.
  induction al as [|e al IH]; [reflexivity|]. cbn [map sumN fold_right length]. 
  fold (sumN (map (fun e => 2400 + 1900 * N.of_nat (length (ale_storage_keys e))) al)). rewrite IH.
  fold (sumN (map (fun e => N.of_nat (length (ale_storage_keys e))) al)). lia.
Qed.

Lemma intrinsic_gas_spec t hs ist : tx_sizes_ok t -> intrinsic_gas t hs ist = spec_intrinsic_gas t hs ist /\ intrinsic_gas t hs ist < 2 ^ 128.
Proof.
  intros (Hd & Ha & Hk). unfold intrinsic_gas, spec_intrinsic_gas. rewrite entries_sum.
  set (K := sumN (map (fun e => N.of_nat (length (ale_storage_keys e))) (tx_access_list t))) in *.
  set (A := N.of_nat (length (tx_access_list t))) in *.
  destruct (data_gas_split (tx_data t) (if ist then 16 else 68)) as [Es El]. 
  replace (map (fun b => if b =? 0 then 4 else if ist then 16 else 68) (tx_data t)) with (map (fun b => if b =? 0 then 4 else (if ist then 16 else 68)) (tx_data t)) by reflexivity.
  rewrite Es. set (NZ := N.of_nat (length (filter (fun c => negb (c =? 0)) (tx_data t)))) in *.
  set (cre := match tx_to t with None => if hs then 32000 else 0 | Some _ => 0 end).
  replace (if match tx_to t with None => hs | Some _ => false end then wrap128 (21000 + 32000) else 21000) with (21000 + cre)
    by (unfold cre; destruct (tx_to t), hs; reflexivity).
  assert (cre <= 32000) by (unfold cre; destruct (tx_to t), hs; lia).
  assert (E1 : wrap128 (21000 + cre + wrap128 (A * 2400)) = 21000 + cre + A * 2400) by (unfold wrap128; rewrite !N.mod_small; lia).
  rewrite E1. rewrite entries_fold; fold K; [|exact Hk|lia].
  destruct (tx_data t) as [|b d] eqn:Ed.
  - replace NZ with 0 by reflexivity. cbn [blen length]. unfold blen. cbn [length]. lia.
  - set (L := blen (b :: d)) in *. set (p := if ist then 16 else 68) in *. assert (p <= 68) by (unfold p; destruct ist; lia).
    assert (E2 : (L + 2 ^ 128 - NZ) mod 2 ^ 128 = L - NZ).
    { replace (L + 2 ^ 128 - NZ) with (L - NZ + 1 * 2 ^ 128) by lia. rewrite N.mod_add by lia. apply N.mod_small. lia. }
    rewrite E2. assert (NZ * p <= NZ * 68) by nia. set (NP := NZ * p) in *. unfold wrap128. rewrite !N.mod_small by lia. lia.
Qed.

Lemma sumN_app_le a b : sumN a <= sumN (a ++ b).
Proof. rewrite sumN_app. lia. Qed.

(** ** Difficulty *)
Section Diff.
  Open Scope Z_scope.
  Lemma bomb_spec d n : Z.of_N d < 2 ^ 256 -> Z.max 131072 (Z.of_N d + spec_bomb (Z.of_N n)) < 2 ^ 256 ->
    Z.of_N (difficulty_bomb d n) = Z.max 131072 (Z.of_N d + spec_bomb (Z.of_N n)).
  Proof.
    intros Hd H. unfold difficulty_bomb, spec_bomb, kMinDifficulty in *. cbv zeta in *.
    replace (Z.of_N n / 100000)%Z with (Z.of_N (n / 100000)) in * by lia. set (k := (n / 100000)%N) in *.
    destruct (Z.leb_spec 2 (Z.of_N k)) as [Hk|Hk].
    - destruct (N.leb_spec 2 k) as [_|]; [|lia].
      assert (Hlt : 2 ^ (Z.of_N k - 2) < 2 ^ 256) by lia.
      assert (Hk2 : Z.of_N k - 2 < 256) by (apply Z.pow_lt_mono_r_iff in Hlt; lia).
      unfold shl256. destruct (N.ltb_spec (k - 2) 256) as [_|]; [|lia]. rewrite N.mul_1_l.
      assert (P : Z.of_N (2 ^ (k - 2)) = 2 ^ (Z.of_N k - 2)) by (rewrite N2Z.inj_pow; f_equal; lia).
      set (q := (2 ^ (k - 2))%N) in *. clearbody q. rewrite <- P in *.
      unfold add256. rewrite (N.mod_small q) by lia.
      rewrite (N.mod_small (d + q)) by lia. destruct (N.ltb_spec (d + q) 131072); lia.
    - destruct (N.leb_spec 2 k) as [|_]; [lia|]. destruct (N.ltb_spec d 131072); lia.
  Qed.

  Lemma bomb_min d n : (kMinDifficulty <= difficulty_bomb d n)%N.
  Proof. unfold difficulty_bomb. cbv zeta. destruct (N.ltb_spec (if 2 <=? n / 100000 then add256 d (shl256 1 (n / 100000 - 2)) else d)%N kMinDifficulty); lia. Qed.

  Lemma sub64_dt ts pts : (pts <= ts)%N -> u64 ts -> Z.of_N (sub64 ts pts) = Z.of_N ts - Z.of_N pts.
  Proof. unfold sub64, u64. intros H1 H2. replace (ts + 2 ^ 64 - pts)%N with (ts - pts + 1 * 2 ^ 64)%N by lia. rewrite N.mod_add by lia. rewrite N.mod_small by lia. lia. Qed.

  Lemma spec_bomb_nonneg n : 0 <= spec_bomb n.
  Proof. unfold spec_bomb. cbv zeta. destruct (2 <=? n / 100000); [|lia]. apply Z.pow_nonneg. lia. Qed.

  Lemma frontier_spec n ts pd pts : u64 ts -> (pts <= ts)%N -> u256 pd ->
    let d := spec_difficulty_of (spec_factor_frontier (Z.of_N ts - Z.of_N pts)) (Z.of_N n) (Z.of_N pd) in
    d < 2 ^ 256 -> Z.of_N (canonical_difficulty_frontier n ts pd pts) = d.
  Proof.
    intros Ht Hp Hd d H. unfold d, spec_difficulty_of, spec_factor_frontier in *. clear d. unfold canonical_difficulty_frontier. cbv zeta.
    pose proof (sub64_dt ts pts Hp Ht) as E. set (dt := sub64 ts pts) in *. rewrite <- E in *. pose proof (spec_bomb_nonneg (Z.of_N n)).
    change (2 ^ 11)%N with 2048%N. unfold u256 in Hd.
    destruct (Z.ltb_spec (Z.of_N dt) 13); destruct (N.ltb_spec dt 13); try lia.
    - rewrite bomb_spec; unfold add256; rewrite N.mod_small by lia; [f_equal|lia|]; lia.
    - assert (Es : sub256 pd (pd / 2048) = (pd - pd / 2048)%N).
      { unfold sub256. replace (pd + 2 ^ 256 - pd / 2048)%N with (pd - pd / 2048 + 1 * 2 ^ 256)%N by lia. rewrite N.mod_add by lia. apply N.mod_small. lia. }
      rewrite Es. rewrite bomb_spec; [|lia|]; lia.
  Qed.

  Lemma homestead_core pd k n (Hd : u256 pd) :
    let x := (pd / 2 ^ 11)%N in
    let base := sub256 pd (mul256 x 99) in
    let dd := if (0 <? k)%N then add256 base (mul256 k x) else base in
    (k <= 101)%N ->
    spec_difficulty_of (Z.of_N k - 99) (Z.of_N n) (Z.of_N pd) < 2 ^ 256 ->
    Z.of_N (difficulty_bomb dd n) = spec_difficulty_of (Z.of_N k - 99) (Z.of_N n) (Z.of_N pd).
  Proof.
    intros x base dd Hk H. unfold spec_difficulty_of in *. pose proof (spec_bomb_nonneg (Z.of_N n)) as Hb. set (B := spec_bomb (Z.of_N n)) in *.
    change (2 ^ 11)%N with 2048%N in x. unfold u256 in Hd.
    replace (Z.of_N pd / 2048) with (Z.of_N x) in * by (unfold x; lia).
    assert (Hx : (2048 * x <= pd)%N) by (unfold x; lia). clearbody x.
    assert (E1 : base = (pd - 99 * x)%N).
    { unfold base, sub256, mul256. rewrite (N.mod_small (x * 99)) by lia. replace (pd + 2 ^ 256 - x * 99)%N with (pd - 99 * x + 1 * 2 ^ 256)%N by lia.
      rewrite N.mod_add by lia. apply N.mod_small. lia. }
    assert (Hkx : (k * x <= 101 * x)%N) by nia.
    assert (E2 : dd = (pd - 99 * x + k * x)%N).
    { unfold dd. rewrite E1. destruct (N.ltb_spec 0 k) as [Hk0|Hk0]; [|replace k with 0%N by lia; lia].
      assert (Z.of_N (k * x) = Z.of_N k * Z.of_N x) by lia. unfold add256, mul256. set (kx := (k * x)%N) in *. 
      assert (Z.of_N x * (Z.of_N k - 99) = Z.of_N kx - 99 * Z.of_N x) by lia.
      rewrite (N.mod_small kx) by lia. rewrite N.mod_small by lia. reflexivity. }
    assert (Ef : Z.of_N dd = Z.of_N pd + Z.of_N x * (Z.of_N k - 99)) by (rewrite E2; lia).
    rewrite bomb_spec; fold B; [|lia|]; rewrite Ef; [reflexivity|exact H].
  Qed.

  Lemma homestead_spec n ts pd pts : u64 ts -> (pts <= ts)%N -> u256 pd ->
    let d := spec_difficulty_of (spec_factor_homestead (Z.of_N ts - Z.of_N pts)) (Z.of_N n) (Z.of_N pd) in
    d < 2 ^ 256 -> Z.of_N (canonical_difficulty_homestead n ts pd pts) = d.
  Proof.
    intros Ht Hp Hd d. unfold d, canonical_difficulty_homestead. cbv zeta. pose proof (sub64_dt ts pts Hp Ht) as E.
    set (dt := sub64 ts pts) in *. rewrite <- E. set (z := (dt / 10)%N).
    assert (Ef : spec_factor_homestead (Z.of_N dt) = Z.of_N (100 - z) - 99) by (unfold spec_factor_homestead, z; lia).
    rewrite Ef. intros H. rewrite <- (homestead_core pd (100 - z) n Hd) by (lia || exact H). cbv zeta.
    replace (z <? 100)%N with (0 <? 100 - z)%N by (destruct (N.ltb_spec z 100), (N.ltb_spec 0 (100 - z)); lia). reflexivity.
  Qed.

  Lemma byzantium_spec n ts pd pts un delay : u64 ts -> (pts <= ts)%N -> u256 pd ->
    let d := spec_difficulty_of (spec_factor_byzantium un (Z.of_N ts - Z.of_N pts)) (fake_number (Z.of_N delay) (Z.of_N n)) (Z.of_N pd) in
    d < 2 ^ 256 -> Z.of_N (canonical_difficulty_byzantium n ts pd pts un delay) = d.
  Proof.
    intros Ht Hp Hd d. unfold d, canonical_difficulty_byzantium. cbv zeta. pose proof (sub64_dt ts pts Hp Ht) as E.
    set (dt := sub64 ts pts) in *. rewrite <- E. set (z := (dt / 9)%N).
    set (n' := (if delay <? n then n - delay else 0)%N).
    assert (En : fake_number (Z.of_N delay) (Z.of_N n) = Z.of_N n') by (unfold fake_number, n'; destruct (N.ltb_spec delay n); lia).
    rewrite En. set (y := (if un then 2 else 1)%N).
    assert (Ef : spec_factor_byzantium un (Z.of_N dt) = Z.of_N (99 + y - z) - 99) by (unfold spec_factor_byzantium, y, z; destruct un; lia).
    rewrite Ef. intros H. assert (Hy : (99 + y - z <= 101)%N) by (unfold y; destruct un; lia).
    rewrite <- (homestead_core pd (99 + y - z) n' Hd Hy H). cbv zeta.
    replace (z <? 99 + y)%N with (0 <? 99 + y - z)%N by (destruct (N.ltb_spec z (99 + y)), (N.ltb_spec 0 (99 + y - z)); lia). reflexivity.
  Qed.
End Diff.

Lemma canonical_difficulty_spec c n ts pd pts un d : u64 ts -> pts <= ts -> u256 pd ->
  spec_difficulty c n (Z.of_N ts - Z.of_N pts) (Z.of_N pd) un d -> (d < 2 ^ 256)%Z ->
  Z.of_N (canonical_difficulty n ts pd pts un c) = d.
Proof.
  intros Ht Hp Hd Hs H. unfold canonical_difficulty. cbv zeta. unfold EVMC_BYZANTIUM, EVMC_LONDON, EVMC_CONSTANTINOPLE, EVMC_HOMESTEAD.
  assert (R : forall r, r <= 10 -> (r <=? revision c n = true <-> rules_from c r n)) by (intros r Hr; rewrite N.leb_le, rules_from_rev by exact Hr; reflexivity).
  assert (R' : forall r, r <= 10 -> ~ rules_from c r n -> r <=? revision c n = false).
  { intros r Hr Hn. destruct (r <=? revision c n) eqn:E; [|reflexivity]. apply R in E; [tauto|exact Hr]. }
  destruct Hs as [delay H4 Hdel|H4 H1|H1].
  - rewrite (proj2 (R 4 ltac:(lia)) H4). destruct Hdel as [H9|b H9 Hm Hb|H9 Hm H5|H5 Hm].
    + rewrite (proj2 (R 9 ltac:(lia)) H9). now apply byzantium_spec.
    + rewrite (R' 9) by (lia || exact H9). rewrite Hm. destruct (N.leb_spec b n); [|lia]. now apply byzantium_spec.
    + rewrite (R' 9) by (lia || exact H9). 
      replace (match cfg_muir_glacier c with Some b => b <=? n | None => false end) with false
        by (destruct (cfg_muir_glacier c) as [b|]; [specialize (Hm b eq_refl); destruct (N.leb_spec b n); [lia|reflexivity]|reflexivity]).
      rewrite (proj2 (R 5 ltac:(lia)) H5). now apply byzantium_spec.
    + assert (H9 : ~ rules_from c 9 n) by (intros (r & Hr & Ha); apply H5; exists r; split; [lia|exact Ha]).
      rewrite (R' 9) by (lia || exact H9).
      replace (match cfg_muir_glacier c with Some b => b <=? n | None => false end) with false
        by (destruct (cfg_muir_glacier c) as [b|]; [specialize (Hm b eq_refl); destruct (N.leb_spec b n); [lia|reflexivity]|reflexivity]).
      rewrite (R' 5) by (lia || exact H5). now apply byzantium_spec.
  - rewrite (R' 4) by (lia || exact H4). rewrite (proj2 (R 1 ltac:(lia)) H1). now apply homestead_spec.
  - assert (H4 : ~ rules_from c 4 n) by (intros (r & Hr & Ha); apply H1; exists r; split; [lia|exact Ha]).
    rewrite (R' 4) by (lia || exact H4). rewrite (R' 1) by (lia || exact H1). now apply frontier_spec.
Qed.

(** The rules always determine a difficulty. *)
Lemma spec_difficulty_total c n dt pd un : exists d, spec_difficulty c n dt pd un d.
Proof.
  assert (D : forall r, r <= 10 -> rules_from c r n \/ ~ rules_from c r n) by (intros r Hr; rewrite rules_from_rev by exact Hr; lia).
  assert (DL : exists delay, spec_delay c n delay).
  { destruct (D 9 ltac:(lia)); [eexists; now apply delay_london|].
    destruct (cfg_muir_glacier c) as [b|] eqn:E; [destruct (N.le_gt_cases b n); [eexists; eapply delay_muir; eauto|]|];
    (destruct (D 5 ltac:(lia)); [eexists; apply delay_constantinople; auto; congruence|eexists; apply delay_byzantium; auto; congruence]). }
  destruct (D 4 ltac:(lia)).
  - destruct DL as (dl & Hdl). eexists. eapply diff_byzantium; eauto.
  - destruct (D 1 ltac:(lia)); [eexists; now apply diff_homestead|eexists; now apply diff_frontier].
Qed.
Lemma difficulty_min c n ts pd pts un : kMinDifficulty <= canonical_difficulty n ts pd pts un c.
Proof.
  unfold canonical_difficulty. cbv zeta. destruct (EVMC_BYZANTIUM <=? revision c n); [apply bomb_min|].
  destruct (EVMC_HOMESTEAD <=? revision c n); apply bomb_min.
Qed.
