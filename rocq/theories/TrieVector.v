(** The root of a list of values: [root_hash] over a vector hands the builder the keys in trie order. *)
From Verif Require Import Base BaseFacts RlpSpec RlpModel RlpProofs UtilModel UtilProofs TrieModel TrieSpec TrieProofs TrieProofs2 TrieProofs3 TrieProofs4 TrieProofs5 TrieLemmas.

Definition key (i : nat) : bytes := encode_u64 (N.of_nat i).
Lemma key_rlp i : N.of_nat i < 2 ^ 62 -> key i = RLP (Num (N.of_nat i)).
Proof. intros H. unfold key, Num. rewrite encode_u64_spec; [reflexivity|]. eapply N.lt_trans; [exact H|reflexivity]. Qed.
Lemma key_cases i : N.of_nat i < 2 ^ 62 -> key i = if (i =? 0)%nat then [0x80] else if (i <? 0x80)%nat then [N.of_nat i] else (0x80 + byte_len (N.of_nat i)) :: BE (N.of_nat i).
Proof.
  intros H. assert (H6 : N.of_nat i < 2 ^ 64) by (eapply N.lt_trans; [exact H|reflexivity]). unfold key. rewrite encode_u64_spec by exact H6. rewrite rlp_str_BE by (eapply N.lt_trans; [exact H6|reflexivity]).
  destruct (N.eqb_spec (N.of_nat i) 0), (Nat.eqb_spec i 0); try lia; [reflexivity|]. destruct (N.ltb_spec (N.of_nat i) 0x80), (Nat.ltb_spec i 0x80); try lia; reflexivity.
Qed.
Lemma key_wf i : N.of_nat i < 2 ^ 62 -> wf_bytes (key i) /\ key i <> [] /\ blen (key i) < 2 ^ 62.
Proof.
  intros H. assert (H6 : N.of_nat i < 2 ^ 64) by (eapply N.lt_trans; [exact H|reflexivity]). pose proof (byte_len_u64 _ H6). rewrite key_cases by exact H.
  destruct (i =? 0)%nat; [|destruct (Nat.ltb_spec i 0x80)]; (split; [|split; [discriminate|unfold blen; cbn [length]; try lia]]).
  - apply wf_cons. split; [lia|constructor].
  - apply wf_cons. split; [lia|constructor].
  - apply wf_cons. split; [lia|apply BE_wf].
  - rewrite BE_length. lia.
Qed.
Lemma key_prefix i j c : N.of_nat i < 2 ^ 62 -> N.of_nat j < 2 ^ 62 -> key j = key i ++ c -> i = j.
Proof.
  intros Hi Hj E. rewrite !key_rlp in E by assumption. unfold Num in E. cbn [RLP] in E.
  assert (B : forall n, n < 2 ^ 62 -> blen (BE n) < 2 ^ 64) by (intros n Hn; rewrite BE_blen; assert (n < 2 ^ 64) as X by (eapply N.lt_trans; [exact Hn|reflexivity]); pose proof (byte_len_u64 n X); lia).
  pose proof (decode_bytes_rt (BE (N.of_nat i)) c (B _ Hi)) as D. rewrite <- E in D. pose proof (decode_bytes_rt (BE (N.of_nat j)) [] (B _ Hj)) as D2. rewrite app_nil_r in D2. rewrite D2 in D. injection D as D _. apply BE_inj in D. lia.
Qed.
Lemma byte_len_mono a b : 0 < a -> a <= b -> byte_len a <= byte_len b.
Proof. intros H L. unfold byte_len. apply N.div_le_mono; [lia|]. pose proof (N.size_le a). pose proof (N.size_log2 a ltac:(lia)). pose proof (N.size_log2 b ltac:(lia)). pose proof (N.log2_le_mono a b L). lia. Qed.
Lemma lex_head a b x y : a < b -> lex_lt (a :: x) (b :: y) = true.
Proof. intros H. cbn [lex_lt]. now destruct (N.ltb_spec a b); [|lia]. Qed.
Lemma key_step n j : (S j < n)%nat -> N.of_nat n < 2 ^ 62 -> lex_lt (key (adjust_index_for_rlp j n)) (key (adjust_index_for_rlp (S j) n)) = true.
Proof.
  intros H Hn. unfold adjust_index_for_rlp.
  destruct (Nat.ltb_spec 0x7f j).
  - destruct (Nat.ltb_spec 0x7f (S j)); [|lia]. rewrite !key_cases by lia. destruct (Nat.eqb_spec j 0); [lia|]. destruct (Nat.eqb_spec (S j) 0); [lia|]. destruct (Nat.ltb_spec j 0x80); [lia|]. destruct (Nat.ltb_spec (S j) 0x80); [lia|].
    pose proof (byte_len_mono (N.of_nat j) (N.of_nat (S j)) ltac:(lia) ltac:(lia)) as M.
    destruct (N.eq_dec (byte_len (N.of_nat j)) (byte_len (N.of_nat (S j)))) as [E|E]; [|apply lex_head; lia].
    rewrite E. cbn [lex_lt]. rewrite N.ltb_irrefl. rewrite lex_lt_be; [rewrite !BE_val; apply N.ltb_lt; lia|apply BE_wf|apply BE_wf|]. now rewrite !BE_length, E.
  - destruct (Nat.eqb_spec j 0x7f) as [Ej|Ej]; cbn [orb].
    + subst j. destruct (Nat.ltb_spec 0x7f (S 0x7f)); [|lia]. reflexivity.
    + destruct (Nat.eqb_spec (j + 1) n); [lia|]. cbn [orb]. destruct (Nat.ltb_spec 0x7f (S j)); [lia|].
      destruct (Nat.eqb_spec (S j) 0x7f); cbn [orb]; [|destruct (Nat.eqb_spec (S j + 1) n)]; rewrite !key_cases by lia; destruct (Nat.eqb_spec (S j) 0); try lia; destruct (Nat.ltb_spec (S j) 0x80); try lia; cbn [Nat.eqb]; try (apply lex_head; lia).
      destruct (Nat.ltb_spec (S (S j)) 0x80); [|lia]. apply lex_head. lia.
Qed.
Lemma adjust_bound n j : (j < n)%nat -> (adjust_index_for_rlp j n < n)%nat.
Proof. intros H. unfold adjust_index_for_rlp. destruct (Nat.ltb_spec 0x7f j); [lia|]. destruct (Nat.eqb_spec j 0x7f), (Nat.eqb_spec (j + 1) n); cbn [orb]; lia. Qed.
Lemma adjust_inj n i j : (i < n)%nat -> (j < n)%nat -> adjust_index_for_rlp i n = adjust_index_for_rlp j n -> i = j.
Proof.
  intros Hi Hj. unfold adjust_index_for_rlp. destruct (Nat.ltb_spec 0x7f i), (Nat.ltb_spec 0x7f j); destruct (Nat.eqb_spec i 0x7f), (Nat.eqb_spec (i + 1) n), (Nat.eqb_spec j 0x7f), (Nat.eqb_spec (j + 1) n); cbn [orb]; lia.
Qed.
Lemma adjust_onto n k : (k < n)%nat -> exists j, (j < n)%nat /\ adjust_index_for_rlp j n = k.
Proof.
  intros H. exists (if (0x7f <? k)%nat then k else if (k =? 0)%nat then Nat.min 0x7f (n - 1) else (k - 1)%nat). unfold adjust_index_for_rlp.
  destruct (Nat.ltb_spec 0x7f k).
  - split; [exact H|]. destruct (Nat.ltb_spec 0x7f k); lia.
  - destruct (Nat.eqb_spec k 0) as [->|Hk].
    + split; [lia|]. destruct (Nat.ltb_spec 0x7f (Nat.min 0x7f (n - 1))); [lia|]. destruct (Nat.eqb_spec (Nat.min 0x7f (n - 1)) 0x7f), (Nat.eqb_spec (Nat.min 0x7f (n - 1) + 1) n); cbn [orb]; lia.
    + split; [lia|]. destruct (Nat.ltb_spec 0x7f (k - 1)); [lia|]. destruct (Nat.eqb_spec (k - 1) 0x7f), (Nat.eqb_spec (k - 1 + 1) n); cbn [orb]; lia.
Qed.
Lemma increasing_map {A} (f : A -> bytes) l : (forall i a b, nth_error l i = Some a -> nth_error l (S i) = Some b -> lex_lt (f a) (f b) = true) -> increasing (map f l).
Proof.
  induction l as [|a [|b l] IH]; intros H; [exact I|exact I|]. cbn [map increasing]. split; [exact (H 0%nat a b eq_refl eq_refl)|]. apply IH. intros i x y. exact (H (S i) x y).
Qed.
Lemma nth_error_seq n i : (i < n)%nat -> nth_error (seq 0 n) i = Some i.
Proof. intros H. rewrite (nth_error_nth' _ 0%nat) by now rewrite seq_length. now rewrite seq_nth. Qed.
Lemma nth_error_seq_inv n i a : nth_error (seq 0 n) i = Some a -> a = i /\ (i < n)%nat.
Proof. intros H. assert (L : (i < n)%nat) by (rewrite <- (seq_length n 0); apply nth_error_Some; congruence). rewrite nth_error_seq in H by exact L. injection H as <-. auto. Qed.

Section Vector.
  Variable values : list bytes.
  Hypothesis Hlen : N.of_nat (length values) < 2 ^ 62.
  Hypothesis Hval : Forall (fun v => blen v < 2 ^ 62) values.
  Lemma vector_keys : map fst (vector_entries values) = map (fun j => key (adjust_index_for_rlp j (length values))) (seq 0 (length values)).
  Proof. unfold vector_entries. rewrite map_map. reflexivity. Qed.
  Lemma vector_in k v : In (k, v) (vector_entries values) <-> exists i, nth_error values i = Some v /\ k = key i.
  Proof.
    unfold vector_entries. rewrite in_map_iff. split.
    - intros (j & E & Hj). apply in_seq in Hj. cbn zeta in E. injection E as <- <-. exists (adjust_index_for_rlp j (length values)). split; [|reflexivity]. apply nth_error_nth'. apply adjust_bound. lia.
    - intros (i & Ei & ->). assert (Li : (i < length values)%nat) by (apply nth_error_Some; congruence). destruct (adjust_onto _ _ Li) as (j & Hj & <-). exists j. split; [|apply in_seq; lia]. cbn zeta. f_equal. now apply nth_error_nth.
  Qed.
  Lemma vector_valid : valid_entries (vector_entries values).
  Proof.
    assert (L : forall i v, nth_error values i = Some v -> N.of_nat i < 2 ^ 62) by (intros i v Hi; assert ((i < length values)%nat) by (apply nth_error_Some; congruence); lia).
    split.
    - apply Forall_forall. intros [k v] H. apply vector_in in H as (i & Hi & ->). destruct (key_wf i (L _ _ Hi)) as (A & B & _). auto.
    - apply Forall_forall. intros [k v] H. apply vector_in in H as (i & Hi & ->). destruct (key_wf i (L _ _ Hi)) as (_ & _ & C). split; [exact C|]. cbn [snd]. rewrite Forall_forall in Hval. apply Hval. eapply nth_error_In. exact Hi.
    - rewrite vector_keys. apply increasing_map. intros i a b Ha Hb. apply nth_error_seq_inv in Ha as (-> & _). apply nth_error_seq_inv in Hb as (-> & Hb). now apply key_step.
    - intros i j a b Ha Hb Hij (c & E). rewrite vector_keys in Ha, Hb. rewrite nth_error_map in Ha, Hb.
      destruct (nth_error (seq 0 (length values)) i) as [x|] eqn:Ex; [|discriminate]. destruct (nth_error (seq 0 (length values)) j) as [y|] eqn:Ey; [|discriminate]. injection Ha as <-. injection Hb as <-.
      apply nth_error_seq_inv in Ex as (-> & Hi). apply nth_error_seq_inv in Ey as (-> & Hj). pose proof (adjust_bound _ _ Hi). pose proof (adjust_bound _ _ Hj). apply key_prefix in E; [|lia|lia]. apply adjust_inj in E; auto.
  Qed.
  Lemma vector_holds t : holds t (vector_entries values) <-> holds_list t values.
  Proof.
    assert (L : forall i v, nth_error values i = Some v -> key i = RLP (Num (N.of_nat i))) by (intros i v Hi; assert ((i < length values)%nat) by (apply nth_error_Some; congruence); apply key_rlp; lia).
    unfold holds, holds_list. split; intros (A & B); split.
    - intros i v Hi. rewrite <- (L i v Hi). apply A. apply vector_in. eauto.
    - intros p v G. apply B in G as (k & -> & Ik). apply vector_in in Ik as (i & Hi & ->). exists i. split; [exact Hi|]. now rewrite (L i v Hi).
    - intros k v Ik. apply vector_in in Ik as (i & Hi & ->). rewrite (L i v Hi). now apply A.
    - intros p v G. apply B in G as (i & Hi & ->). exists (key i). split; [now rewrite (L i v Hi)|]. apply vector_in. eauto.
  Qed.
  Lemma vector_exists keccak : hash_32 keccak -> values <> [] -> exists t, canonical t /\ holds_list t values.
  Proof.
    intros Hk Hne. assert (N : vector_entries values <> []) by (destruct values; [congruence|discriminate]). destruct (builder_root keccak _ Hk vector_valid N) as (t & C & H & _). exists t. split; [exact C|]. now apply vector_holds.
  Qed.
  Lemma vector_root_ok keccak t : hash_32 keccak -> canonical t -> holds_list t values -> vector_root keccak values = Some (trie_root keccak t).
  Proof.
    intros Hk C H. apply vector_holds in H. destruct values as [|v vs] eqn:E.
    - exfalso. destruct (canonical_inhabited t C) as (p & w & G). apply (proj2 H) in G as (k & _ & []).
    - rewrite <- E in *. assert (N : vector_entries values <> []) by (rewrite E; discriminate). destruct (builder_root keccak _ Hk vector_valid N) as (u & Cu & Hu & B). rewrite (holds_unique _ u t vector_valid Cu C Hu H) in B. unfold vector_root. now rewrite B.
  Qed.
End Vector.
