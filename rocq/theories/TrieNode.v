(** Trie nodes in the database: marshal_node and unmarshal_node (db/silkworm/trie/db_trie.cpp), and when the builder's
    reports are defined. *)
From Verif Require Import Base BaseFacts RlpSpec RlpModel RlpProofs UtilModel UtilProofs TrieModel TrieSpec TrieProofs TrieProofs2 TrieProofs3 TrieProofs4 TrieProofs5 TrieLemmas.

(** db_trie.cpp:187-215; the hashes are 32-byte strings. *)
Definition marshal_node (n : node) : bytes :=
  be_fixed 2 (n_state_mask n) ++ be_fixed 2 (n_tree_mask n) ++ be_fixed 2 (n_hash_mask n)
  ++ match n_root_hash n with Some h => h | None => [] end ++ concat (n_hashes n).
(** std::bitset<16>::count (db_trie.cpp:237) *)
Definition popcount16 (m : N) : nat := length (filter (N.testbit m) (map N.of_nat (seq 0 16))).
(** db_trie.cpp:245-248 *)
Fixpoint chunks (n : nat) (v : bytes) : list bytes := match n with O => [] | S n' => firstn 32 v :: chunks n' (skipn 32 v) end.
(** db_trie.cpp:217-251; [None] is a thrown invalid_argument. The constructor's asserts (hash_builder.cpp:45-47) are not
    part of a release build and do not stop it. *)
Definition unmarshal_node (v : bytes) : option node :=
  if (length v <? 6)%nat then None
  else if negb ((length v - 6) mod 32 =? 0)%nat then None
  else
    let state_mask := be_to_N (firstn 2 v) in
    let v := skipn 2 v in
    let tree_mask := be_to_N (firstn 2 v) in
    let v := skipn 2 v in
    let hash_mask := be_to_N (firstn 2 v) in
    let v := skipn 2 v in
    let '(root, v) := if (popcount16 hash_mask + 1 =? length v / 32)%nat then (Some (firstn 32 v), skipn 32 v) else (None, v) in
    Some (mkNode state_mask tree_mask hash_mask (chunks (length v / 32) v) root).

(** A node as the builder reports it: 16-bit masks, one hash per bit of the hash mask. *)
Definition node_ok (n : node) : Prop :=
  small_masks ([], n) /\ length (n_hashes n) = popcount16 (n_hash_mask n)
  /\ Forall (fun h => length h = 32%nat) (n_hashes n) /\ match n_root_hash n with Some h => length h = 32%nat | None => True end.

Lemma chunks_concat l : Forall (fun h : bytes => length h = 32%nat) l -> chunks (length l) (concat l) = l.
Proof.
  induction l as [|h l IH]; intros F; [reflexivity|]. apply Forall_cons_iff in F as (H & F). cbn [concat length chunks]. rewrite firstn_app, skipn_app, <- H, firstn_all, skipn_all, Nat.sub_diag. cbn [firstn skipn]. rewrite app_nil_r, app_nil_l. f_equal. now apply IH.
Qed.
Lemma concat_len l : Forall (fun h : bytes => length h = 32%nat) l -> length (concat l) = (32 * length l)%nat.
Proof. induction l as [|h l IH]; intros F; [reflexivity|]. apply Forall_cons_iff in F as (H & F). cbn [concat length]. rewrite app_length, (IH F), H. lia. Qed.
Lemma chunks_spec n : forall v, length v = (32 * n)%nat -> concat (chunks n v) = v /\ Forall (fun h => length h = 32%nat) (chunks n v) /\ length (chunks n v) = n.
Proof.
  induction n as [|n IH]; intros v L; [destruct v; [repeat constructor|discriminate]|]. cbn [chunks concat length]. destruct (IH (skipn 32 v)) as (A & B & C); [rewrite skipn_length; lia|].
  rewrite A, C, firstn_skipn. split; [reflexivity|]. split; [|reflexivity]. constructor; [rewrite firstn_length; lia|exact B].
Qed.
Lemma split_front (a b : bytes) k : length a = k -> firstn k (a ++ b) = a /\ skipn k (a ++ b) = b.
Proof. intros <-. rewrite firstn_app, skipn_app, firstn_all, skipn_all, Nat.sub_diag. cbn [firstn skipn]. now rewrite app_nil_r. Qed.
Lemma div32 n : (32 * n / 32 = n)%nat.
Proof. rewrite Nat.mul_comm. apply Nat.div_mul. lia. Qed.
Lemma be2 m : m < 2 ^ 16 -> be_to_N (be_fixed 2 m) = m.
Proof. intros H. apply be_to_N_be_fixed_small. exact H. Qed.

Theorem node_roundtrip n : node_ok n -> unmarshal_node (marshal_node n) = Some n.
Proof.
  intros ((M1 & M2 & M3) & Hc & Hh & Hr). cbn [snd] in M1, M2, M3. destruct n as [s t h hs r]. cbn [n_state_mask n_tree_mask n_hash_mask n_hashes n_root_hash] in *. unfold marshal_node. cbn [n_state_mask n_tree_mask n_hash_mask n_hashes n_root_hash].
  set (body := match r with Some h => h | None => [] end ++ concat hs).
  assert (Lb : length body = (32 * ((if r then 1 else 0) + length hs))%nat).
  { unfold body. rewrite app_length, (concat_len hs Hh). destruct r; cbn [length]; lia. }
  unfold unmarshal_node.
  assert (L : length (be_fixed 2 s ++ be_fixed 2 t ++ be_fixed 2 h ++ body) = (6 + length body)%nat) by (rewrite !app_length, !be_fixed_length; lia).
  rewrite L. destruct (Nat.ltb_spec (6 + length body) 6); [lia|]. replace (6 + length body - 6)%nat with (length body) by lia.
  rewrite Lb at 1. rewrite Nat.mul_comm, Nat.mod_mul by lia. cbn [Nat.eqb negb]. cbv zeta.
  destruct (split_front (be_fixed 2 s) (be_fixed 2 t ++ be_fixed 2 h ++ body) 2 (be_fixed_length _ _)) as (-> & ->).
  destruct (split_front (be_fixed 2 t) (be_fixed 2 h ++ body) 2 (be_fixed_length _ _)) as (-> & ->).
  destruct (split_front (be_fixed 2 h) body 2 (be_fixed_length _ _)) as (-> & ->). rewrite !be2 by assumption.
  rewrite Lb, div32. destruct r as [r|].
  - rewrite <- Hc. replace (length hs + 1)%nat with (1 + length hs)%nat by lia. rewrite Nat.eqb_refl. unfold body. destruct (split_front r (concat hs) 32 Hr) as (-> & ->). now rewrite (concat_len hs Hh), div32, chunks_concat.
  - rewrite <- Hc. destruct (Nat.eqb_spec (length hs + 1) (0 + length hs)); [lia|]. rewrite Lb, div32. unfold body. cbn [app Nat.add]. now rewrite chunks_concat.
Qed.
(** The other way: whatever is accepted has a possible length and is the marshalled form of the result. *)
Theorem node_unmarshal_exact v n : wf_bytes v -> unmarshal_node v = Some n ->
  marshal_node n = v /\ small_masks ([], n) /\ Forall (fun h => length h = 32%nat) (n_hashes n) /\ match n_root_hash n with Some h => length h = 32%nat | None => True end.
Proof.
  intros W. unfold unmarshal_node. destruct (Nat.ltb_spec (length v) 6) as [|L6]; [discriminate|]. destruct (Nat.eqb_spec ((length v - 6) mod 32) 0) as [M|]; [|discriminate]. cbn [negb]. cbv zeta.
  assert (X : exists a b c w, v = a ++ b ++ c ++ w /\ length a = 2%nat /\ length b = 2%nat /\ length c = 2%nat).
  { exists (firstn 2 v), (firstn 2 (skipn 2 v)), (firstn 2 (skipn 2 (skipn 2 v))), (skipn 2 (skipn 2 (skipn 2 v))). rewrite !firstn_skipn. split; [reflexivity|]. rewrite !firstn_length, !skipn_length. lia. }
  destruct X as (a & b & c & w & -> & La & Lb & Lc). rewrite !app_length, La, Lb, Lc in M. replace (2 + (2 + (2 + length w)) - 6)%nat with (length w) in M by lia. clear L6.
  destruct (split_front a (b ++ c ++ w) 2 La) as (-> & ->). destruct (split_front b (c ++ w) 2 Lb) as (-> & ->). destruct (split_front c w 2 Lc) as (-> & ->).
  apply wf_app in W as (Wa & W). apply wf_app in W as (Wb & W). apply wf_app in W as (Wc & W).
  assert (Bd : forall x, wf_bytes x -> length x = 2%nat -> be_to_N x < 2 ^ 16 /\ be_fixed 2 (be_to_N x) = x).
  { intros x Wx Lx. pose proof (be_to_N_bound x Wx) as B. unfold blen in B. rewrite Lx in B. split; [exact B|]. rewrite <- Lx. now apply be_fixed_be_to_N. }
  destruct (Bd a Wa La) as (A1 & A2). destruct (Bd b Wb Lb) as (B1 & B2). destruct (Bd c Wc Lc) as (C1 & C2).
  assert (Lw : exists k, length w = (32 * k)%nat) by (exists (length w / 32)%nat; pose proof (Nat.div_mod (length w) 32 ltac:(lia)); lia). destruct Lw as (k & Lw). rewrite Lw, div32.
  destruct (Nat.eqb_spec (popcount16 (be_to_N c) + 1) k) as [Ek|Ek]; intros E; (assert (E1 : forall (a b : node), Some a = Some b -> a = b) by congruence); apply E1 in E; clear E1; subst n.
  - assert (Ls : length (skipn 32 w) = (32 * (k - 1))%nat) by (rewrite skipn_length; lia). rewrite Ls, div32. destruct (chunks_spec (k - 1) _ Ls) as (D1 & D2 & D3).
    split; [unfold marshal_node; cbn [n_state_mask n_tree_mask n_hash_mask n_hashes n_root_hash]; rewrite D1, A2, B2, C2, firstn_skipn; reflexivity|]. split; [repeat split; assumption|]. split; [exact D2|]. cbn [n_root_hash]. rewrite firstn_length. lia.
  - rewrite Lw, div32. destruct (chunks_spec k w Lw) as (D1 & D2 & D3). split; [unfold marshal_node; cbn [n_state_mask n_tree_mask n_hash_mask n_hashes n_root_hash]; rewrite D1, A2, B2, C2; reflexivity|]. split; [repeat split; assumption|]. split; [exact D2|exact I].
Qed.
Theorem node_bad_length v : unmarshal_node v = None <-> (length v < 6 \/ (length v - 6) mod 32 <> 0)%nat.
Proof.
  unfold unmarshal_node. destruct (Nat.ltb_spec (length v) 6); [split; auto|]. destruct (Nat.eqb_spec ((length v - 6) mod 32) 0); cbn [negb]; [|split; auto]. cbv zeta.
  destruct (_ =? _)%nat; (split; [discriminate|]; intros [X|X]; [lia|congruence]).
Qed.

(** ** When the reports are defined *)
Section Big.
  Variable keccak : bytes -> bytes.
  Hypothesis Hk : forall b, length (keccak b) = 32%nat.
  Notation node_item := (TrieSpec.node_item keccak).
  Lemma rlp_lst_ge l : blen (concat (map RLP l)) + 1 <= blen (RLP (Lst l)).
  Proof. cbn [RLP]. unfold rlp_lst, hdr. rewrite blen_app. destruct (_ <? _); unfold blen; cbn [length]; lia. Qed.
  Lemma rlp_str_ge s : blen s <= blen (RLP (Str s)) /\ 1 <= blen (RLP (Str s)).
  Proof. cbn [RLP]. unfold rlp_str, hdr. destruct s as [|b [|b' s]]; [|destruct (_ <? _)|]; repeat destruct (_ <? _); unfold blen; rewrite ?app_length; cbn [length]; rewrite ?app_length; cbn [length]; lia. Qed.
  Lemma rlp_str_ge2 s : 2 <= blen s -> blen s + 1 <= blen (RLP (Str s)).
  Proof. cbn [RLP]. unfold rlp_str, hdr. destruct s as [|b [|b' s]]; [unfold blen; cbn [length]; lia|unfold blen; cbn [length]; lia|]. intros _. rewrite blen_app. destruct (_ <? _); unfold blen; cbn [length]; lia. Qed.
  Lemma child_ge x : N.min 32 (blen (RLP x)) <= blen (RLP (child keccak x)).
  Proof. unfold child. destruct (N.ltb_spec (blen (RLP x)) 32); [lia|]. pose proof (rlp_str_ge (keccak (RLP x))) as (H1 & _). unfold blen at 1 in H1. rewrite Hk in H1. lia. Qed.
  Lemma slots_ge m cs : (forall c, In (Some c) cs -> m <= blen (RLP (child keccak (node_item c)))) -> 1 <= m ->
    N.of_nat (length (used cs)) * (m - 1) + N.of_nat (length cs) <= blen (concat (map RLP (map (fun o => match o with Some c => child keccak (node_item c) | None => Str [] end) cs))).
  Proof.
    intros H M. induction cs as [|o cs IH]; [cbn; lia|]. cbn [map concat]. rewrite blen_app. specialize (IH (fun c Hc => H c (or_intror Hc))). destruct o as [c|]; [change (used (Some c :: cs)) with (c :: used cs)|change (used (None :: cs)) with (used cs)]; cbn [length].
    - pose proof (H c (or_introl eq_refl)). nia.
    - change (blen (RLP (Str []))) with 1. lia.
  Qed.
  Lemma branch_ge m cs : canonical (Branch cs) -> (forall c, In (Some c) cs -> m <= blen (RLP (child keccak (node_item c)))) -> 1 <= m -> 2 * m + 16 <= blen (RLP (node_item (Branch cs))).
  Proof.
    intros C H M. apply canonical_branch in C as (L & U & _). pose proof (slots_ge m cs H M) as X. cbn [TrieSpec.node_item]. pose proof (rlp_lst_ge (map (fun o => match o with Some c => child keccak (node_item c) | None => Str [] end) cs ++ [Str []])) as Y.
    rewrite map_app, concat_app, blen_app in Y. cbn [map concat] in Y. change (blen (RLP (Str []) ++ [])) with 1 in Y. rewrite L in X. nia.
  Qed.
  Lemma leaf_ge p v : blen (HP p true) + blen v + 1 <= blen (RLP (node_item (Leaf p v))) /\ (2 <= blen (HP p true) -> blen (HP p true) + 3 <= blen (RLP (node_item (Leaf p v)))).
  Proof. cbn [TrieSpec.node_item]. pose proof (rlp_str_ge2 (HP p true)). pose proof (rlp_lst_ge [Str (HP p true); Str v]) as Y. cbn [map concat] in Y. rewrite !blen_app, blen_nil in Y. pose proof (rlp_str_ge (HP p true)). pose proof (rlp_str_ge v). lia. Qed.
  Lemma ext_ge p c : blen (RLP (child keccak (node_item c))) + 2 <= blen (RLP (node_item (Ext p c))).
  Proof. cbn [TrieSpec.node_item]. pose proof (rlp_lst_ge [Str (HP p false); child keccak (node_item c)]) as Y. cbn [map concat] in Y. rewrite !blen_app, blen_nil in Y. pose proof (rlp_str_ge (HP p false)). lia. Qed.

  (** Values of at least 32 bytes. *)
  Lemma big_values t : canonical t -> (forall k v, get t k = Some v -> 32 <= blen v) -> 32 <= blen (RLP (node_item t)) /\ big_branches keccak t.
  Proof.
    induction t as [p v|p c IH|cs IH] using mpt_ind'; intros C G.
    - split; [|exact I]. pose proof (leaf_ge p v). pose proof (G p v (proj2 (get_leaf p v p v) (conj eq_refl eq_refl))). lia.
    - destruct C as (_ & _ & C). destruct (IH C) as (A & B); [intros k v Gk; apply (G (p ++ k) v), get_ext; eauto|]. split; [|exact B]. pose proof (ext_ge p c). pose proof (child_ge (node_item c)). lia.
    - rewrite Forall_forall in IH. pose proof C as C0. apply canonical_branch in C as (L & U & C).
      assert (X : forall c, In (Some c) cs -> 32 <= blen (RLP (node_item c)) /\ big_branches keccak c).
      { intros c Hc. apply (IH _ Hc (C _ Hc)). intros k v Gk. apply In_nth_error in Hc as (i & Hi). apply (G (N.of_nat i :: k) v). rewrite get_branch, Nat2N.id, Hi. exact Gk. }
      split; [|apply big_branch; intros c Hc; destruct (X c Hc); auto].
      pose proof (branch_ge 8 cs C0) as Y. enough (forall c, In (Some c) cs -> 8 <= blen (RLP (child keccak (node_item c)))) as Z by (specialize (Y Z); lia). intros c Hc. destruct (X c Hc). pose proof (child_ge (node_item c)). lia.
  Qed.
  (** Keys of the same length, of which no two agree in all but the last eight nibbles. *)
  Lemma HP_ge p : (8 <= length p)%nat -> 5 <= blen (HP p true).
  Proof.
    intros H. do 8 (destruct p as [|? p]; [cbn in H; lia|]). unfold HP. destruct (Nat.even _) eqn:E; [|destruct p as [|? p]; [discriminate|]]; cbn [pack]; unfold blen; cbn [length]; lia.
  Qed.
  Lemma big_paths t : canonical t -> forall L, (forall k v, get t k = Some v -> length k = L) ->
    (forall k1 k2 v1 v2, get t k1 = Some v1 -> get t k2 = Some v2 -> k1 <> k2 -> firstn (L - 8) k1 <> firstn (L - 8) k2) ->
    big_branches keccak t /\ (is_branch t = true -> 32 <= blen (RLP (node_item t))) /\ ((8 <= L)%nat -> 8 <= blen (RLP (node_item t))).
  Proof.
    induction t as [p v|p c IH|cs IH] using mpt_ind'; intros C L GL GD.
    - split; [exact I|]. split; [discriminate|]. intros HL. pose proof (leaf_ge p v) as (_ & X). rewrite <- (GL p v (proj2 (get_leaf p v p v) (conj eq_refl eq_refl))) in HL. apply HP_ge in HL. lia.
    - destruct C as (_ & Bc & C). destruct c as [| |ds]; try discriminate. destruct (branch_two ds C) as (a & x & v1 & b & y & v2 & Hn & G1 & G2).
      assert (HL : (length p + 8 < L)%nat).
      { destruct (Nat.le_gt_cases L (length p + 8)); [|assumption]. exfalso. apply (GD (p ++ a :: x) (p ++ b :: y) v1 v2); [apply get_ext; eauto|apply get_ext; eauto|intros E; apply app_inv_head in E; congruence|]. rewrite !firstn_app. replace (L - 8 - length p)%nat with 0%nat by lia. reflexivity. }
      destruct (IH C (L - length p)%nat) as (A & B & _).
      + intros k w Gk. pose proof (GL (p ++ k) w ltac:(apply get_ext; eauto)) as E. rewrite app_length in E. lia.
      + intros k1 k2 w1 w2 K1 K2 Hk12 E. apply (GD (p ++ k1) (p ++ k2) w1 w2); [apply get_ext; eauto|apply get_ext; eauto|intros X; apply app_inv_head in X; congruence|]. rewrite !firstn_app. replace (L - 8 - length p)%nat with (L - length p - 8)%nat by lia. now rewrite E.
      + split; [exact A|]. split; [discriminate|]. intros _. specialize (B eq_refl). pose proof (ext_ge p (Branch ds)). pose proof (child_ge (node_item (Branch ds))). lia.
    - destruct (branch_two cs C) as (a & x & v1 & b & y & v2 & Hn & G1 & G2).
      assert (HL : (8 < L)%nat).
      { destruct (Nat.le_gt_cases L 8); [|assumption]. exfalso. apply (GD (a :: x) (b :: y) v1 v2 G1 G2); [congruence|]. replace (L - 8)%nat with 0%nat by lia. reflexivity. }
      rewrite Forall_forall in IH. pose proof C as C0. apply canonical_branch in C as (_ & U & C).
      assert (X : forall c, In (Some c) cs -> big_branches keccak c /\ (is_branch c = true -> 32 <= blen (RLP (node_item c))) /\ ((8 <= L - 1)%nat -> 8 <= blen (RLP (node_item c)))).
      { intros c Hc. apply (IH _ Hc (C _ Hc)); apply In_nth_error in Hc as (i & Hi).
        - intros k w Gk. pose proof (GL (N.of_nat i :: k) w) as E. rewrite get_branch, Nat2N.id, Hi in E. specialize (E Gk). cbn in E. lia.
        - intros k1 k2 w1 w2 K1 K2 Hk12 E. apply (GD (N.of_nat i :: k1) (N.of_nat i :: k2) w1 w2); [rewrite get_branch, Nat2N.id, Hi; exact K1|rewrite get_branch, Nat2N.id, Hi; exact K2|congruence|].
          replace (L - 8)%nat with (S (L - 1 - 8)) by lia. cbn [firstn]. now rewrite E. }
      assert (Z : forall c, In (Some c) cs -> 8 <= blen (RLP (child keccak (node_item c)))) by (intros c Hc; destruct (X c Hc) as (_ & _ & Y); specialize (Y ltac:(lia)); pose proof (child_ge (node_item c)); lia).
      pose proof (branch_ge 8 cs C0 Z ltac:(lia)) as Y. split; [apply big_branch; intros c Hc; destruct (X c Hc) as (? & ? & _); auto|]. split; intros _; lia.
  Qed.
End Big.
(** Both sources of trie entries of the database satisfy the condition: account records are longer than 32 bytes, and no two
    hashed storage locations of 32 bytes are known to share their first 28 bytes. *)
Lemma reports_defined keccak entries t : hash_32 keccak -> valid_entries entries -> canonical t -> holds t entries ->
  (forall k v, In (k, v) entries -> 32 <= blen v)
  \/ ((forall k v, In (k, v) entries -> length k = 32%nat) /\ (forall k1 v1 k2 v2, In (k1, v1) entries -> In (k2, v2) entries -> firstn 28 k1 = firstn 28 k2 -> k1 = k2)) ->
  big_branches keccak t.
Proof.
  intros Hk V C H D. assert (G : forall k v, get t k = Some v -> exists b, k = nibbles b /\ In (b, v) entries /\ wf_bytes b).
  { intros k v Gk. apply (holds_rep _ V t C H) in Gk. cbn [app] in Gk. apply (v_in _ V) in Gk as (b & -> & I & W & _). eauto. }
  destruct D as [D|(D1 & D2)].
  - apply (big_values keccak (fun b => proj1 (Hk b)) t C). intros k v Gk. apply G in Gk as (b & _ & I & _). eauto.
  - apply (big_paths keccak (fun b => proj1 (Hk b)) t C 64).
    + intros k v Gk. apply G in Gk as (b & -> & I & _). rewrite nibbles_len, (D1 _ _ I). reflexivity.
    + intros k1 k2 v1 v2 G1 G2 Hn E. apply G in G1 as (b1 & -> & I1 & W1). apply G in G2 as (b2 & -> & I2 & W2). apply Hn. f_equal. apply (D2 _ _ _ _ I1 I2).
      assert (F : forall b n, (n <= length b)%nat -> firstn (2 * n) (nibbles b) = nibbles (firstn n b)).
      { clear. induction b as [|x b IH]; intros n Hn; [destruct n; [reflexivity|cbn in Hn; lia]|]. destruct n; [reflexivity|]. replace (2 * S n)%nat with (S (S (2 * n))) by lia. change (nibbles (x :: b)) with (x / 16 :: x mod 16 :: nibbles b). cbn [firstn]. change (nibbles (x :: firstn n b)) with (x / 16 :: x mod 16 :: nibbles (firstn n b)). do 2 f_equal. apply IH. cbn in Hn. lia. }
      change (64 - 8)%nat with (2 * 28)%nat in E. rewrite !F in E by (rewrite ?(D1 _ _ I1), ?(D1 _ _ I2); lia).
      assert (Wf : forall b n, wf_bytes b -> wf_bytes (firstn n b)) by (intros b n W; rewrite <- (firstn_skipn n b) in W; now apply wf_app in W).
      rewrite <- (app_nil_r (nibbles (firstn 28 b1))) in E. symmetry in E. apply nibbles_prefix in E as (c & E & Ec); [|now apply Wf|now apply Wf]. destruct c; [now rewrite app_nil_r in E|discriminate].
Qed.
