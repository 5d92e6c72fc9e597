(** The trie builder: the whole run, uniqueness of the trie, vector_root. *)
From Verif Require Import Base BaseFacts RlpSpec RlpModel RlpProofs UtilModel UtilProofs TrieModel TrieSpec TrieProofs TrieProofs2 TrieProofs3 TrieProofs4.

(** ** Nibbles *)
Lemma unpack_nibbles_spec k : unpack_nibbles k = nibbles k.
Proof. unfold unpack_nibbles, nibbles. f_equal. apply map_ext. intros b. change 15 with (N.ones 4). now rewrite N.land_ones. Qed.
Lemma nibbles_nib k : wf_bytes k -> nib (nibbles k).
Proof.
  induction k as [|b k IH]; intros H; [constructor|]. apply wf_cons in H as (Hb & H). unfold nibbles. cbn [map concat]. fold (nibbles k). apply nib_app. split; [|now apply IH].
  constructor; [apply N.div_lt_upper_bound; lia|]. constructor; [apply N.mod_lt; lia|constructor].
Qed.
Lemma nibbles_len k : length (nibbles k) = (2 * length k)%nat.
Proof. induction k as [|b k IH]; [reflexivity|]. unfold nibbles. cbn [map concat]. fold (nibbles k). rewrite app_length, IH. cbn. lia. Qed.
Lemma nibbles_lex a b : wf_bytes a -> wf_bytes b -> lex_lt (nibbles a) (nibbles b) = lex_lt a b.
Proof.
  revert b. induction a as [|x a IH]; intros [|y b] Wa Wb; [reflexivity|reflexivity|reflexivity|]. apply wf_cons in Wa as (Hx & Wa). apply wf_cons in Wb as (Hy & Wb).
  unfold nibbles. cbn [map concat app lex_lt]. fold (nibbles a). fold (nibbles b). rewrite (IH b Wa Wb).
  pose proof (N.div_mod x 16 ltac:(lia)) as Dx. pose proof (N.div_mod y 16 ltac:(lia)) as Dy. pose proof (N.mod_lt x 16 ltac:(lia)) as Mx. pose proof (N.mod_lt y 16 ltac:(lia)) as My.
  revert Dx Dy Mx My. generalize (x / 16) (x mod 16) (y / 16) (y mod 16). intros xd xm yd ym Dx Dy Mx My.
  destruct (N.ltb_spec xd yd), (N.ltb_spec yd xd), (N.ltb_spec xm ym), (N.ltb_spec ym xm), (N.ltb_spec x y), (N.ltb_spec y x); try reflexivity; lia.
Qed.
Lemma nibbles_prefix a : forall b x, wf_bytes a -> wf_bytes b -> nibbles b = nibbles a ++ x -> exists c, b = a ++ c /\ x = nibbles c.
Proof.
  induction a as [|p a IH]; intros b x Wa Wb E; [exists b; auto|]. destruct b as [|q b]; [discriminate|]. apply wf_cons in Wa as (Hp & Wa). apply wf_cons in Wb as (Hq & Wb).
  unfold nibbles in E. cbn [map concat app] in E. fold (nibbles a) in E. fold (nibbles b) in E. injection E as E1 E2 E3. destruct (IH b x Wa Wb E3) as (c & -> & ->). exists c. split; [|reflexivity].
  cbn. f_equal. rewrite (N.div_mod q 16), (N.div_mod p 16) by lia. congruence.
Qed.

(** ** Order *)
Lemma increasing_strong {B} (l : list (bytes * B)) : increasing (map fst l) -> forall pre a post e, l = pre ++ a :: post -> In e post -> lex_lt (fst a) (fst e) = true.
Proof.
  assert (H : forall (l : list (bytes * B)) a, increasing (map fst (a :: l)) -> forall e, In e l -> lex_lt (fst a) (fst e) = true).
  { clear l. induction l as [|b l IH]; intros a H e He; [destruct He|]. cbn in H. destruct H as (H1 & H2). destruct He as [ <- |He]; [exact H1|]. eapply lex_lt_trans; [exact H1|]. apply IH; [exact H2|exact He]. }
  intros I pre a post e -> He. apply (H post); [|exact He]. clear He. induction pre as [|b pre IH]; [exact I|]. apply IH. cbn in I. destruct (pre ++ a :: post) eqn:E; [destruct pre; discriminate|]. cbn in I. apply I.
Qed.
Lemma split_at (c : list N) d : (d < length c)%nat -> c = firstn d c ++ nth d c 0 :: skipn (S d) c.
Proof. revert d. induction c as [|a c IH]; intros d H; [cbn in H; lia|]. destruct d; [reflexivity|]. cbn. f_equal. apply IH. cbn in H. lia. Qed.
Lemma lex_less d (c : bytes) b x : (d < length c)%nat -> b < nth d c 0 -> lex_lt (firstn d c ++ b :: x) c = true.
Proof. intros Hd Hb. rewrite (split_at c d Hd) at 2. rewrite lex_lt_app_common. cbn. apply N.ltb_lt in Hb. now rewrite Hb. Qed.
Lemma lex_more d (c : bytes) b x : (d < length c)%nat -> nth d c 0 < b -> lex_lt c (firstn d c ++ b :: x) = true.
Proof. intros Hd Hb. rewrite (split_at c d Hd) at 1. rewrite lex_lt_app_common. cbn. apply N.ltb_lt in Hb. now rewrite Hb. Qed.
Lemma prefix_length_at c d b y : (d < length c)%nat -> b <> nth d c 0 -> prefix_length (firstn d c ++ b :: y) c = d.
Proof.
  revert d. induction c as [|a c IH]; intros d H Hb; [cbn in H; lia|]. destruct d; cbn in *; [destruct (N.eqb_spec b a); [congruence|reflexivity]|]. rewrite N.eqb_refl. f_equal. apply IH; [lia|exact Hb].
Qed.

Section Order.
  Variable F : list (list N * bytes).
  Hypothesis HP : forall k x v w, In (k, v) F -> In (k ++ x, w) F -> x = [] /\ v = w.
  Hypothesis HS : forall pre a post e, F = pre ++ a :: post -> In e post -> lex_lt (fst a) (fst e) = true.
  Variables (pre post : list (list N * bytes)) (c : list N) (v : bytes).
  Hypothesis EF : F = pre ++ (c, v) :: post.

  Lemma trich k w : In (k, w) F -> lex_lt c k = true -> In (k, w) post.
  Proof.
    intros I L. pose proof I as I'. rewrite EF in I. apply in_app_or in I as [I|[I|I]]; [|injection I as <- <-; rewrite lex_lt_irrefl in L; discriminate|exact I].
    exfalso. apply in_split in I as (p1 & p2 & ->). assert (X : lex_lt k c = true). { apply (HS p1 (k, w) (p2 ++ (c, v) :: post) (c, v)); [rewrite EF, <- app_assoc; reflexivity|]. apply in_or_app. right. now left. }
    apply lex_lt_asym in X. congruence.
  Qed.
  Definition succ_of : list N := match post with [] => [] | e :: _ => fst e end.
  Lemma next k w : In (k, w) F -> lex_lt c k = true -> post <> [] /\ (k = succ_of \/ lex_lt succ_of k = true).
  Proof.
    intros I L. pose proof (trich _ _ I L) as J. unfold succ_of. destruct post as [|e post']; [destruct J|]. split; [discriminate|]. destruct J as [ -> |J]; [now left|right].
    apply (HS (pre ++ [(c, v)]) e post' (k, w)); [rewrite EF, <- app_assoc; reflexivity|exact J].
  Qed.
  Lemma In_c : In (c, v) F. Proof. rewrite EF. apply in_or_app. right. now left. Qed.
  Lemma succ_facts : post <> [] -> exists d b y w, succ_of = firstn d c ++ b :: y /\ (d < length c)%nat /\ nth d c 0 < b /\ prefix_length succ_of c = d /\ In (succ_of, w) F.
  Proof.
    intros Hp. assert (X : exists s w post', post = (s, w) :: post') by (clear EF; destruct post as [|[s w] post']; [congruence|eauto]). destruct X as (s & w & post' & Ep). unfold succ_of. rewrite Ep. cbn [fst].
    assert (Is : In (s, w) F) by (rewrite EF, Ep; apply in_or_app; right; right; now left).
    assert (L : lex_lt c s = true) by (apply (HS pre (c, v) post (s, w) EF); rewrite Ep; now left). destruct (diverge c s) as [(y & E)|[(d & Hd & E)|(d & b & y & Hd & E & Hb)]].
    - exfalso. rewrite E in Is. destruct (HP _ _ _ _ In_c Is) as ( -> & _). rewrite app_nil_r in E. subst s. rewrite lex_lt_irrefl in L. discriminate.
    - exfalso. rewrite E in Is. pose proof In_c as J. rewrite <- (firstn_skipn d c) in J. destruct (HP _ _ _ _ Is J) as (Z & _). apply (f_equal (@length N)) in Z. rewrite skipn_length in Z. cbn in Z. lia.
    - exists d, b, y, w. split; [exact E|]. split; [exact Hd|]. split; [|split; [rewrite E; now apply prefix_length_at|exact Is]].
      destruct (N.lt_trichotomy b (nth d c 0)) as [X|[X|X]]; [|congruence|exact X]. exfalso. pose proof (lex_less d c b y Hd X) as Y. rewrite <- E in Y. apply lex_lt_asym in Y. congruence.
  Qed.
  Lemma after_ok : succ_of <> [] \/ post = [] -> after F c succ_of.
  Proof.
    intros Hne d b x w Hd Hb I. destruct (next _ _ I (lex_more d c b x Hd Hb)) as (Hp & Hk). destruct Hne as [Hne|Hne]; [|congruence]. split; [exact Hne|].
    destruct (succ_facts Hp) as (d' & b' & y & u & E & Hd' & Hb' & Ep & _). rewrite Ep. destruct Hk as [Hk|Hk].
    - rewrite <- Hk in Ep. rewrite prefix_length_at in Ep by (try exact Hd; lia). lia.
    - destruct (Nat.le_gt_cases d d') as [X|X]; [exact X|exfalso]. assert (Y : lex_lt (firstn d c ++ b :: x) succ_of = true); [|apply lex_lt_asym in Y; congruence].
      rewrite E. rewrite (split_at (firstn d c ++ b :: x) d') by (rewrite app_length, firstn_length; lia). rewrite firstn_app_le by (rewrite firstn_length; lia). rewrite firstn_firstn, Nat.min_l by lia. rewrite lex_lt_app_common. cbn.
      rewrite app_nth1 by (rewrite firstn_length; lia). rewrite nth_firstn by exact X. apply N.ltb_lt in Hb'. now rewrite Hb'.
  Qed.
  Lemma gap_ok : succ_of <> [] \/ post = [] -> gap F c succ_of.
  Proof.
    intros Hne Hs. assert (Hp : post <> []) by (destruct Hne as [_|Hne]; [unfold succ_of in Hs; destruct post; [congruence|discriminate]|unfold succ_of in Hs; rewrite Hne in Hs; congruence]).
    destruct (succ_facts Hp) as (d & b & y & u & E & Hd & Hb & Ep & Is). cbv zeta. rewrite Ep.
    assert (Ls : (d < length succ_of)%nat) by (rewrite E, app_length, firstn_length; cbn; lia).
    assert (Ns : nth d succ_of 0 = b) by (rewrite E, app_nth2, firstn_length, Nat.min_l, Nat.sub_diag by (rewrite ?firstn_length; lia); reflexivity).
    assert (Fs : firstn d succ_of = firstn d c) by (rewrite E, firstn_app_le, firstn_firstn, Nat.min_id by (rewrite firstn_length; lia); reflexivity).
    split; [exact Hd|]. split; [exact Ls|]. rewrite Ns. split; [exact Hb|]. split.
    - intros b' x w H1 H2 I. destruct (next _ _ I (lex_more d c b' x Hd H1)) as (_ & [Hk|Hk]).
      + rewrite <- Hk in Ns. rewrite app_nth2, firstn_length, Nat.min_l, Nat.sub_diag in Ns by (rewrite ?firstn_length; lia). cbn in Ns. lia.
      + rewrite <- Fs in Hk. rewrite <- Ns in H2. pose proof (lex_less d succ_of b' x Ls H2) as X. apply lex_lt_asym in X. congruence.
    - intros d' b' x w Hd' Hb' I. assert (L1 : lex_lt (firstn d' succ_of ++ b' :: x) succ_of = true) by (apply lex_less; [lia|exact Hb']).
      assert (L2 : lex_lt c (firstn d' succ_of ++ b' :: x) = true).
      { rewrite (split_at (firstn d' succ_of ++ b' :: x) d) by (rewrite app_length, firstn_length; lia). rewrite firstn_app_le by (rewrite firstn_length; lia). rewrite firstn_firstn, Nat.min_l by lia. rewrite Fs. apply lex_more; [exact Hd|].
        rewrite app_nth1 by (rewrite firstn_length; lia). rewrite nth_firstn by lia. now rewrite Ns. }
      destruct (next _ _ I L2) as (_ & [Hk|Hk]).
      + rewrite Hk, lex_lt_irrefl in L1. discriminate.
      + apply lex_lt_asym in Hk. congruence.
  Qed.
  Lemma first_below : pre = [] -> below F c 0.
  Proof.
    intros Ep d b x w Hd Hb I. pose proof (lex_less d c b x ltac:(lia) Hb) as L. rewrite EF, Ep in I. cbn in I. destruct I as [I|I].
    - injection I as I _. rewrite <- I, lex_lt_irrefl in L. discriminate.
    - assert (X := HS pre (c, v) post _ EF I). cbn in X. apply lex_lt_asym in X. congruence.
  Qed.
End Order.

(** ** The whole run *)
Section Run.
  Variable keccak : bytes -> bytes.
  Hypothesis Hk : forall b, length (keccak b) = 32%nat.
  Variable collect : bool.
  Variable F : list (list N * bytes).
  Hypothesis HF : forall k v, In (k, v) F -> nib k /\ blen k < 2 ^ 63 /\ blen v < 2 ^ 62.
  Hypothesis HP : forall k x v w, In (k, v) F -> In (k ++ x, w) F -> x = [] /\ v = w.
  Hypothesis HS : forall pre a post e, F = pre ++ a :: post -> In e post -> lex_lt (fst a) (fst e) = true.
  Hypothesis Hne : forall k v, In (k, v) F -> k <> [].
  Hypothesis Hbig : collect = true -> forall p cs c, rep F p (Branch cs) -> In (Some c) cs -> is_branch c = true -> 32 <= blen (RLP (node_item keccak c)).

  Lemma paused_entry pre c v post s G H T NS O : F = pre ++ (c, v) :: post -> paused keccak collect F c s G H T NS O ->
    entry keccak collect F false c (succ_of post) v s (Leaf [] v) G H T NS O.
  Proof.
    intros EF [Op Eg Est Eo Esm El Eh Et Ela Eb]. assert (Ic := In_c F pre post c v EF).
    assert (Hs : succ_of post <> [] \/ post = []). { destruct post as [|[s0 w] post']; [now right|left]. cbn. apply (Hne s0 w). rewrite EF. apply in_or_app. right. right. now left. }
    constructor; try assumption.
    - rewrite Eo. destruct collect; [now rewrite app_nil_r|reflexivity].
    - discriminate.
    - intros C d. rewrite (Eh C). cbn. now rewrite N.lor_0_r.
    - intros C d. rewrite (Et C). cbn. now rewrite N.lor_0_r.
    - now apply rep_leaf.
    - auto.
    - now apply (Hne c v).
    - eapply after_ok; eassumption.
    - eapply gap_ok; eassumption.
  Qed.

  Lemma step_ok pre c v post s G H T NS O : F = pre ++ (c, v) :: post -> paused keccak collect F c s G H T NS O ->
    exists s', gen_struct_step keccak collect c (succ_of post) v s = Some s'
      /\ match post with [] => finished keccak collect F s' | e :: _ => exists G' H' T' NS' O', paused keccak collect F (fst e) s' G' H' T' NS' O' end.
  Proof.
    intros EF P. destruct (loop_ok keccak Hk collect F HF HP Hbig (S (length c)) _ _ _ _ _ _ _ _ _ _ _ (Nat.lt_succ_diag_r (length c)) (paused_entry _ _ _ _ _ _ _ _ _ _ EF P)) as (s' & E & C).
    exists s'. split; [exact E|]. destruct post as [|[s0 w] post']; cbn [succ_of fst] in *.
    - destruct C as [(C & _)|(_ & C)]; [congruence|exact C].
    - destruct C as [(_ & C)|(C & _)]; [exact C|]. exfalso. apply (Hne s0 w); [|exact C]. rewrite EF. apply in_or_app. right. right. now left.
  Qed.
  Lemma is_empty_false {A} (l : list A) : l <> [] -> is_empty l = false. Proof. now destruct l. Qed.

  Lemma run_ok : forall es pre k v s G H T NS O, F = pre ++ (nibbles k, v) :: map (fun e => (nibbles (fst e), snd e)) es -> hb_key s = nibbles k -> hb_value s = v ->
    paused keccak collect F (nibbles k) s G H T NS O -> exists s' s'', add_all keccak collect es s = Some s' /\ finalize keccak collect s' = Some s'' /\ finished keccak collect F s''.
  Proof.
    induction es as [|[k2 v2] es IH]; intros pre k v s G H T NS O EF Ek Ev P.
    - destruct (step_ok _ _ _ _ _ _ _ _ _ _ EF P) as (s' & E & Fi). cbn [map succ_of] in E, Fi. exists s. eexists. split; [reflexivity|]. unfold finalize. rewrite Ek, Ev, is_empty_false by (apply (Hne _ v); rewrite EF; apply in_or_app; right; now left).
      rewrite E. split; [reflexivity|]. exact Fi.
    - destruct (step_ok _ _ _ _ _ _ _ _ _ _ EF P) as (s' & E & (G' & H' & T' & NS' & O' & P')). cbn [map succ_of fst snd] in E, P'. cbn [add_all]. unfold add. rewrite Ek, Ev, is_empty_false by (apply (Hne _ v); rewrite EF; apply in_or_app; right; now left).
      rewrite unpack_nibbles_spec, E. apply (IH (pre ++ [(nibbles k, v)]) k2 v2 _ G' H' T' NS' O').
      + rewrite EF, <- app_assoc. reflexivity.
      + reflexivity.
      + reflexivity.
      + destruct P'. constructor; assumption.
  Qed.

  Lemma build_ok k v es : F = map (fun e => (nibbles (fst e), snd e)) ((k, v) :: es) ->
    exists t root out, build keccak collect ((k, v) :: es) = Some (root, out) /\ rep F [] t /\ root = trie_root keccak t /\ map as_report out = (if collect then collected keccak [] t else []) /\ Forall small_masks out.
  Proof.
    intros EF. set (s1 := mkHb (nibbles k) v [] [] [] [] []).
    assert (P : paused keccak collect F (nibbles k) s1 [] [] [] [] []).
    { constructor; cbn; try (now destruct collect); try now left; try constructor. eapply (first_below F HP HS []); [exact EF|reflexivity]. }
    destruct (run_ok es [] k v s1 [] [] [] [] [] EF eq_refl eq_refl P) as (s' & s'' & E1 & E2 & (t & Rt & Est & Eo & Sm)).
    exists t, (trie_root keccak t), (hb_out s''). split; [|auto]. assert (Ea : add keccak collect k v hb_new = Some s1) by (unfold add; cbn [hb_new hb_key is_empty]; rewrite unpack_nibbles_spec; reflexivity). unfold build. cbn [add_all]. rewrite Ea, E1.
    unfold root_hash. rewrite E2, Est. cbn [stack_root]. now rewrite (ref_root keccak Hk).
  Qed.
End Run.

(** ** A trie is determined by its content *)
Lemma used_two cs : (2 <= length (used cs))%nat -> exists i j c d, i <> j /\ nth_error cs i = Some (Some c) /\ nth_error cs j = Some (Some d).
Proof.
  induction cs as [|o cs IH]; intros H; [cbn in H; lia|]. destruct o as [c|].
  - unfold used in H. cbn in H. fold (used cs) in H. destruct (used cs) as [|d us] eqn:E; [cbn in H; lia|]. assert (I : In (Some d) cs) by (apply used_in; rewrite E; now left). apply In_nth_error in I as (j & I). exists 0%nat, (S j), c, d. auto.
  - destruct (IH H) as (i & j & c & d & Hij & Ei & Ej). exists (S i), (S j), c, d. auto.
Qed.
Lemma branch_two cs : canonical (Branch cs) -> exists a x v b y w, a <> b /\ get (Branch cs) (a :: x) = Some v /\ get (Branch cs) (b :: y) = Some w.
Proof.
  intros C. apply canonical_branch in C as (_ & U & C). destruct (used_two _ U) as (i & j & c & d & Hij & Ei & Ej).
  destruct (canonical_inhabited c (C _ (nth_error_In _ _ Ei))) as (x & v & Gx). destruct (canonical_inhabited d (C _ (nth_error_In _ _ Ej))) as (y & w & Gy).
  exists (N.of_nat i), x, v, (N.of_nat j), y, w. split; [lia|]. rewrite !get_branch, !Nat2N.id, Ei, Ej. auto.
Qed.
Lemma common_prefix (q : list N) : forall p y1 y2 a1 a2 x1 x2, p ++ a1 :: x1 = q ++ y1 -> p ++ a2 :: x2 = q ++ y2 -> a1 <> a2 -> exists r, p = q ++ r.
Proof.
  induction q as [|c q IH]; intros p y1 y2 a1 a2 x1 x2 E1 E2 Hn; [exists p; reflexivity|]. destruct p as [|e p]; cbn in E1, E2; [congruence|]. injection E1 as -> E1. injection E2 as E2. destruct (IH _ _ _ _ _ _ _ E1 E2 Hn) as (r & ->). exists r. reflexivity.
Qed.
Lemma list_ext {A} (d : A) (l m : list A) : length l = length m -> (forall i, nth_error l i = nth_error m i) -> l = m.
Proof. revert m. induction l as [|a l IH]; intros [|b m] L H; try discriminate; [reflexivity|]. pose proof (H 0%nat) as H0. cbn in H0. injection H0 as ->. f_equal. apply IH; [cbn in L; congruence|]. intros i. apply (H (S i)). Qed.

Definition same (t u : mpt) : Prop := forall k v, get t k = Some v <-> get u k = Some v.
Lemma leaf_not_branch p v u cs q : is_branch (Branch cs) = true -> canonical (Branch cs) -> (forall k w, get u k = Some w <-> exists r, k = q ++ r /\ get (Branch cs) r = Some w) -> ~ same (Leaf p v) u.
Proof.
  intros _ C H S. destruct (branch_two cs C) as (a & x & w1 & b & y & w2 & Hn & G1 & G2).
  assert (X1 : get u (q ++ a :: x) = Some w1) by (apply H; eauto). assert (X2 : get u (q ++ b :: y) = Some w2) by (apply H; eauto). apply S, get_leaf in X1 as (X1 & _). apply S, get_leaf in X2 as (X2 & _).
  rewrite <- X2 in X1. apply app_inv_head in X1. congruence.
Qed.
Lemma ext_keys q d k w : get (Ext q d) k = Some w -> exists r, k = q ++ r /\ get d r = Some w. Proof. apply get_ext. Qed.

Lemma canonical_unique t : canonical t -> forall u, canonical u -> same t u -> t = u.
Proof.
  induction t as [p v|p c IH|cs IH] using mpt_ind'; intros C u Cu S.
  - destruct u as [q w|q d|ds].
    + assert (X : get (Leaf q w) p = Some v) by (apply S, get_leaf; auto). apply get_leaf in X as ( -> & -> ). reflexivity.
    + exfalso. destruct Cu as (_ & B & Cd). destruct d as [| |ds]; try discriminate. revert S. eapply leaf_not_branch; [exact B|exact Cd|]. intros k x. apply get_ext.
    + exfalso. revert S. eapply (leaf_not_branch p v _ ds []); [reflexivity|exact Cu|]. intros k x. cbn [app]. split; [eauto|intros (r & -> & G); exact G].
  - destruct C as (Hp & B & Cc). destruct c as [| |cs]; try discriminate. destruct (branch_two cs Cc) as (a & x & v1 & b & y & v2 & Hn & G1 & G2).
    assert (X1 : get u (p ++ a :: x) = Some v1) by (apply S, get_ext; eauto). assert (X2 : get u (p ++ b :: y) = Some v2) by (apply S, get_ext; eauto). destruct u as [q w|q d|ds].
    + exfalso. apply get_leaf in X1 as (X1 & _). apply get_leaf in X2 as (X2 & _). rewrite <- X2 in X1. apply app_inv_head in X1. congruence.
    + destruct Cu as (Hq & Bd & Cd). destruct d as [| |ds]; try discriminate. apply get_ext in X1 as (r1 & E1 & _). apply get_ext in X2 as (r2 & E2 & _). destruct (common_prefix q p _ _ _ _ _ _ E1 E2 Hn) as (r & Er).
      destruct (branch_two ds Cd) as (a' & x' & v1' & b' & y' & v2' & Hn' & G1' & G2').
      assert (Y1 : get (Ext p (Branch cs)) (q ++ a' :: x') = Some v1') by (apply S, get_ext; eauto). assert (Y2 : get (Ext p (Branch cs)) (q ++ b' :: y') = Some v2') by (apply S, get_ext; eauto).
      apply get_ext in Y1 as (s1 & F1 & _). apply get_ext in Y2 as (s2 & F2 & _). destruct (common_prefix p q _ _ _ _ _ _ F1 F2 Hn') as (r' & Er').
      assert (Eq : p = q). { rewrite Er' in Er. rewrite <- app_assoc in Er. rewrite <- (app_nil_r p) in Er at 1. apply app_inv_head in Er. symmetry in Er. apply app_eq_nil in Er as ( -> & -> ). now rewrite app_nil_r in Er'. }
      clear Er Er'. subst q. f_equal. apply (IH Cc _ Cd). intros k w. split; intros G.
      * assert (Z : get (Ext p (Branch ds)) (p ++ k) = Some w) by (apply S, get_ext; eauto). apply get_ext in Z as (z & Ez & Z). apply app_inv_head in Ez. now subst z.
      * assert (Z : get (Ext p (Branch cs)) (p ++ k) = Some w) by (apply S, get_ext; eauto). apply get_ext in Z as (z & Ez & Z). apply app_inv_head in Ez. now subst z.
    + exfalso. destruct p as [|p0 p]; [congruence|]. destruct (branch_two ds Cu) as (a' & x' & v1' & b' & y' & v2' & Hn' & G1' & G2'). apply S, get_ext in G1' as (? & E1 & _). apply S, get_ext in G2' as (? & E2 & _). cbn in E1, E2. congruence.
  - destruct (branch_two cs C) as (a & x & v1 & b & y & v2 & Hn & G1 & G2). destruct u as [q w|q d|ds].
    + exfalso. apply S, get_leaf in G1 as (G1 & _). apply S, get_leaf in G2 as (G2 & _). congruence.
    + exfalso. destruct Cu as (Hq & _). destruct q as [|q0 q]; [congruence|]. apply S, get_ext in G1 as (? & E1 & _). apply S, get_ext in G2 as (? & E2 & _). cbn in E1, E2. congruence.
    + f_equal. apply canonical_branch in C as (L & _ & C). apply canonical_branch in Cu as (Lu & _ & Cu). apply (list_ext None); [congruence|]. intros i. rewrite Forall_forall in IH.
      assert (P : forall k w, match nth_error cs i with Some (Some c) => get c k | _ => None end = Some w <-> match nth_error ds i with Some (Some c) => get c k | _ => None end = Some w).
      { intros k w. pose proof (S (N.of_nat i :: k) w) as Si. rewrite !get_branch, Nat2N.id in Si. exact Si. }
      destruct (nth_error cs i) as [[c|]|] eqn:Ec, (nth_error ds i) as [[d|]|] eqn:Ed; try reflexivity.
      * do 2 f_equal. apply (IH _ (nth_error_In _ _ Ec)); [apply C; eapply nth_error_In; eassumption|apply Cu; eapply nth_error_In; eassumption|exact P].
      * exfalso. destruct (canonical_inhabited c) as (k & w & G); [apply C; eapply nth_error_In; eassumption|]. apply P in G. discriminate.
      * exfalso. apply nth_error_None in Ed. assert (i < length cs)%nat by (apply nth_error_Some; congruence). lia.
      * exfalso. destruct (canonical_inhabited d) as (k & w & G); [apply Cu; eapply nth_error_In; eassumption|]. apply P in G. discriminate.
      * exfalso. apply nth_error_None in Ed. assert (i < length cs)%nat by (apply nth_error_Some; congruence). lia.
      * exfalso. apply nth_error_None in Ec. assert (i < length ds)%nat by (apply nth_error_Some; congruence). lia.
      * exfalso. apply nth_error_None in Ec. assert (i < length ds)%nat by (apply nth_error_Some; congruence). lia.
Qed.

(** ** Branches below *)
Section Sub.
  Variable keccak : bytes -> bytes.
  Lemma big_branch cs : big_branches keccak (Branch cs) <-> forall c, In (Some c) cs -> (is_branch c = true -> 32 <= blen (RLP (node_item keccak c))) /\ big_branches keccak c.
  Proof.
    cbn [big_branches]. induction cs as [|o cs IH]; [split; [intros _ c []|auto]|]. rewrite IH. destruct o as [c|]; split.
    - intros (A & B) x [E|Hx]; [injection E as <-; exact A|now apply B].
    - intros H. split; [apply H; now left|]. intros x Hx. apply H. now right.
    - intros (_ & B) x [E|Hx]; [discriminate|now apply B].
    - intros H. split; [exact I|]. intros x Hx. apply H. now right.
  Qed.
  Lemma sub_big t : canonical t -> big_branches keccak t -> forall p cs, canonical (Branch cs) -> (forall k v, get (Branch cs) k = Some v <-> get t (p ++ k) = Some v) -> big_branches keccak (Branch cs).
  Proof.
    induction t as [q v|q c IH|ds IH] using mpt_ind'; intros C B p cs Cu S; destruct (branch_two cs Cu) as (a & x & v1 & b & y & v2 & Hn & G1 & G2).
    - exfalso. apply S, get_leaf in G1 as (G1 & _). apply S, get_leaf in G2 as (G2 & _). rewrite <- G2 in G1. apply app_inv_head in G1. congruence.
    - destruct C as (Hq & Bc & Cc). apply S, get_ext in G1 as (r1 & E1 & _). apply S, get_ext in G2 as (r2 & E2 & _). destruct (common_prefix q p _ _ _ _ _ _ E1 E2 Hn) as (r & ->).
      apply (IH Cc B r cs Cu). intros k w. rewrite S, <- app_assoc, get_ext. split; [intros (z & Ez & Z); apply app_inv_head in Ez; now subst z|eauto].
    - destruct p as [|p0 p].
      + cbn [app] in S. rewrite (canonical_unique (Branch cs) Cu (Branch ds) C S). exact B.
      + apply canonical_branch in C as (L & _ & C). rewrite big_branch in B. rewrite Forall_forall in IH. apply S in G1. cbn [app] in G1. rewrite get_branch in G1. destruct (nth_error ds (N.to_nat p0)) as [[d|]|] eqn:Ed; try discriminate. apply nth_error_In in Ed as I.
        apply (IH _ I (C _ I) (proj2 (B _ I)) p cs Cu). intros k w. rewrite S. cbn [app]. rewrite get_branch, Ed. reflexivity.
  Qed.
  Lemma sub_hashed F t : rep F [] t -> big_branches keccak t -> forall p cs c, rep F p (Branch cs) -> In (Some c) cs -> is_branch c = true -> 32 <= blen (RLP (node_item keccak c)).
  Proof.
    intros (C & R) B p cs c (Cu & S) I. assert (X : big_branches keccak (Branch cs)). { apply (sub_big t C B p cs Cu). intros k v. rewrite S, R. reflexivity. }
    rewrite big_branch in X. now apply X.
  Qed.
End Sub.
