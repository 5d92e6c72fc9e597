(** The trie builder: one iteration and one step. *)
From Verif Require Import Base BaseFacts RlpSpec RlpModel RlpProofs UtilModel UtilProofs TrieModel TrieSpec TrieProofs TrieProofs2 TrieProofs3.

Lemma prefix_length_firstn s c n : prefix_length s (firstn n c) = Nat.min n (prefix_length s c).
Proof. revert c n. induction s as [|a s IH]; intros [|b c] [|n]; cbn; try lia. destruct (a =? b); [rewrite IH|]; lia. Qed.
Lemma prefix_length_nil c : prefix_length [] c = 0%nat.
Proof. reflexivity. Qed.
Lemma nth_app_zeros (l : list N) k d : nth d (l ++ repeat 0 k) 0 = nth d l 0.
Proof. destruct (Nat.lt_ge_cases d (length l)); [now apply app_nth1|]. rewrite app_nth2 by lia. rewrite nth_repeat0. symmetry. now apply nth_overflow. Qed.
Lemma combine_app {A B} (a a' : list A) (b b' : list B) : length a = length b -> combine (a ++ a') (b ++ b') = combine a b ++ combine a' b'.
Proof. revert b. induction a as [|x a IH]; intros [|y b] H; try discriminate; [reflexivity|]. cbn. f_equal. apply IH. cbn in H. congruence. Qed.
Lemma firstn_app_le {A} (a b : list A) n : (n <= length a)%nat -> firstn n (a ++ b) = firstn n a.
Proof. intros H. rewrite firstn_app. replace (n - length a)%nat with 0%nat by lia. apply app_nil_r. Qed.

Section Step.
  Variable keccak : bytes -> bytes.
  Hypothesis Hk : forall b, length (keccak b) = 32%nat.
  Variable collect : bool.
  Variable F : list (list N * bytes).
  Hypothesis HF : forall k v, In (k, v) F -> nib k /\ blen k < 2 ^ 63 /\ blen v < 2 ^ 62.
  Hypothesis HP : forall k x v w, In (k, v) F -> In (k ++ x, w) F -> x = [] /\ v = w.
  Notation ref := (ref keccak).
  Notation rep := (rep F).
  Notation level := (level F).
  Notation opened := (opened F keccak).
  Notation outs := (outs keccak).
  Notation collected := (collected keccak).
  Hypothesis Hbig : collect = true -> forall p cs c, rep p (Branch cs) -> In (Some c) cs -> is_branch c = true -> 32 <= blen (RLP (node_item keccak c)).

  Definition below (c : list N) (n : nat) : Prop := forall d b x v, (n <= d < length c)%nat -> b < nth d c 0 -> ~ In (firstn d c ++ b :: x, v) F.
  Definition after (c succ : list N) : Prop := forall d b x v, (d < length c)%nat -> nth d c 0 < b -> In (firstn d c ++ b :: x, v) F -> succ <> [] /\ (d <= prefix_length succ c)%nat.
  Definition gap (c succ : list N) : Prop := succ <> [] -> let cm := prefix_length succ c in
    (cm < length c)%nat /\ (cm < length succ)%nat /\ nth cm c 0 < nth cm succ 0
    /\ (forall b x v, nth cm c 0 < b -> b < nth cm succ 0 -> ~ In (firstn cm c ++ b :: x, v) F) /\ below succ (S cm).
  Record paused (c : list N) (s : hb) (G H T : list N) (NS : list mpt) (O : list report) : Prop := {
    pa_open : opened c G H T NS O;
    pa_groups : hb_groups s = G;
    pa_stack : hb_stack s = rev (map ref NS);
    pa_out : map as_report (hb_out s) = if collect then O else [];
    pa_small : Forall small_masks (hb_out s);
    pa_len : length (hb_tree_masks s) = length (hb_hash_masks s);
    pa_hash : collect = true -> forall d, nth d (hb_hash_masks s) 0 = nth d H 0;
    pa_tree : collect = true -> forall d, nth d (hb_tree_masks s) 0 = nth d T 0;
    pa_last : G = [] \/ last G 0 <> 0;
    pa_below : below c (length G) }.
  Record entry (ext : bool) (c succ v : list N) (s : hb) (n : mpt) (G H T : list N) (NS : list mpt) (O : list report) : Prop := {
    en_open : opened c G H T NS O;
    en_groups : hb_groups s = G;
    en_stack : hb_stack s = (if ext then [ref n] else []) ++ rev (map ref NS);
    en_out : map as_report (hb_out s) = if collect then O ++ (if ext then collected c n else []) else [];
    en_small : Forall small_masks (hb_out s);
    en_len : length (hb_tree_masks s) = length (hb_hash_masks s);
    en_len_ext : ext = true -> length (hb_hash_masks s) = length c;
    en_hash : collect = true -> forall d, nth d (hb_hash_masks s) 0 = N.lor (nth d H 0) (if ext && (S d =? length c)%nat then bit (nth d c 0) else 0);
    en_tree : collect = true -> forall d, nth d (hb_tree_masks s) 0 = N.lor (nth d T 0) (if ext && (S d =? length c)%nat && stored n then bit (nth d c 0) else 0);
    en_rep : rep c n;
    en_tip : if ext then is_branch n = true else n = Leaf [] v /\ In (c, v) F;
    en_c : c <> [];
    en_last : G = [] \/ last G 0 <> 0;
    en_below : below c (length G);
    en_after : after c succ;
    en_gap : gap c succ }.
  Definition finished (s : hb) : Prop := exists t, rep [] t /\ hb_stack s = [ref t] /\ map as_report (hb_out s) = (if collect then collected [] t else []) /\ Forall small_masks (hb_out s).

  Lemma only c n from : rep c n -> (from <= length c)%nat -> below c from -> (forall d b x v, (from <= d < length c)%nat -> nth d c 0 < b -> ~ In (firstn d c ++ b :: x, v) F) ->
    forall x v, In (firstn from c ++ x, v) F -> exists y, x = skipn from c ++ y.
  Proof.
    intros R Hf B A x v I. destruct (diverge c (firstn from c ++ x)) as [(y & E)|[(d & Hd & E)|(d & b & y & Hd & E & Hb)]].
    - exists y. rewrite <- (firstn_skipn from c) in E at 2. rewrite <- app_assoc in E. now apply app_inv_head in E.
    - exfalso. rewrite E in I. destruct (rep_some _ _ _ R) as (k & w & J). rewrite <- (firstn_skipn d c), <- app_assoc in J. destruct (HP _ _ _ _ I J) as (Z & _). apply app_eq_nil in Z as (Z & _). apply (f_equal (@length N)) in Z. rewrite skipn_length in Z. cbn in Z. lia.
    - exfalso. assert (L : (from <= d)%nat).
      { destruct (Nat.le_gt_cases from d) as [X|X]; [exact X|exfalso]. assert (Q : nth d (firstn from c ++ x) 0 = nth d (firstn d c ++ b :: y) 0) by (now rewrite E).
        rewrite app_nth1 in Q by (rewrite firstn_length; lia). rewrite nth_firstn in Q by exact X. rewrite app_nth2 in Q by (rewrite firstn_length; lia). rewrite firstn_length, Nat.min_l, Nat.sub_diag in Q by lia. cbn in Q. congruence. }
      rewrite E in I. destruct (N.lt_trichotomy b (nth d c 0)) as [X|[X|X]]; [eapply B; [|exact X|exact I]; lia|congruence|eapply A; [|exact X|exact I]; lia].
  Qed.
  Lemma outs_add p cd g ns u : cd < 16 -> (forall b, N.testbit g b = true -> b < cd) -> length (digits g) = length ns -> outs p (N.lor g (bit cd)) (ns ++ [u]) = outs p g ns ++ collected (p ++ [cd]) u.
  Proof. intros Hd Hg L. unfold TrieProofs2.outs. rewrite digits_add by assumption. rewrite combine_app by exact L. rewrite map_app, concat_app. cbn. now rewrite app_nil_r. Qed.
  Lemma collected_tip p q (ext : bool) n v : (if ext then is_branch n = true else n = Leaf [] v) -> collected p (tip q n) = if ext then collected (p ++ q) n else [].
  Proof. destruct ext; intros H; [|subst n; reflexivity]. destruct n; try discriminate. destruct q; cbn [tip]; [now rewrite app_nil_r|reflexivity]. Qed.

  Lemma split_level c G H T NS O len : opened c G H T NS O -> below c (length G) -> (pred (length G) <= len)%nat -> (len < length c)%nat ->
    exists G1 H1 T1 NS1 O1 g h t ns, length G1 = len /\ opened c G1 H1 T1 NS1 O1 /\ level (firstn len c) (nth len c 0) g h t ns /\ NS = NS1 ++ ns /\ O = O1 ++ outs (firstn len c) g ns
      /\ (if (length G <=? len)%nat then resize (S len) G else G) = G1 ++ [g] /\ (forall d, nth d H 0 = nth d (H1 ++ [h]) 0) /\ (forall d, nth d T 0 = nth d (T1 ++ [t]) 0)
      /\ (length G = S len -> G = G1 ++ [g]).
  Proof.
    intros Op B Lp Lc. destruct (Nat.leb_spec (length G) len) as [L|L].
    - exists (G ++ repeat 0 (len - length G)), (H ++ repeat 0 (len - length G)), (T ++ repeat 0 (len - length G)), NS, O, 0, 0, 0, []. unfold TrieProofs2.outs. cbn [digits combine map concat]. change (digits 0) with (@nil N). cbn [combine map concat]. rewrite !app_nil_r.
      split; [rewrite app_length, repeat_length; lia|]. split; [apply opened_pad; [exact Op|lia|exact B]|]. split; [apply level_empty; intros b x v Hb; apply B; [lia|exact Hb]|]. split; [reflexivity|]. split; [reflexivity|].
      split; [rewrite resize_pad by lia; rewrite <- app_assoc; f_equal; replace (S len - length G)%nat with (S (len - length G)) by lia; apply repeat_cons|].
      split; [intros d; rewrite nth_snoc0; symmetry; apply nth_app_zeros|]. split; [intros d; rewrite nth_snoc0; symmetry; apply nth_app_zeros|]. lia.
    - destruct (exists_last (l := G)) as (G1 & g & E); [destruct G; [cbn in L; lia|discriminate]|]. rewrite E in *. rewrite app_length in *. cbn [length] in *.
      destruct (opened_last _ _ _ _ _ _ _ _ _ Op) as (H1 & h & T1 & t & NS1 & ns & O1 & -> & -> & -> & -> & Op1 & Lc1 & Lv). assert (El : length G1 = len) by lia. rewrite El in *.
      exists G1, H1, T1, NS1, O1, g, h, t, ns. do 5 (split; [(reflexivity || assumption)|]). auto.
  Qed.

  Lemma nib_c c n : rep c n -> nib c /\ blen c < 2 ^ 63.
  Proof. intros R. destruct (rep_some _ _ _ R) as (k & v & I). apply HF in I as (A & B & _). apply nib_app in A as (A & _). rewrite blen_app in B. split; [exact A|lia]. Qed.

  Lemma iteration_ok ext c succ v s n G H T NS O : entry ext c succ v s n G H T NS O ->
    (exists s' G' H' T' NS' O', succ <> [] /\ iteration keccak collect ext c succ v s = Some (s', None) /\ paused succ s' G' H' T' NS' O') \/
    (exists s', succ = [] /\ iteration keccak collect ext c succ v s = Some (s', None) /\ finished s') \/
    (exists s' m n' G' H' T' NS' O', iteration keccak collect ext c succ v s = Some (s', Some (firstn m c)) /\ (m < length c)%nat /\ entry true (firstn m c) succ v s' n' G' H' T' NS' O').
  Proof.
    intros [Op Eg Est Eo Esm El Ele Eh Et Er Eti Ec Ela Eb Ea Ega]. destruct (nib_c _ _ Er) as (Nc & Bc). destruct (opened_len _ _ _ _ _ _ _ _ Op) as (LH & LT & LG).
    assert (Lc0 : (0 < length c)%nat) by (destruct c; [congruence|cbn; lia]).
    set (cm := prefix_length succ c). assert (Lcm : (cm < length c)%nat). { destruct succ as [|a succ']; [exact Lc0|]. apply Ega. discriminate. }
    assert (Bv : ext = false -> blen v < 2 ^ 62) by (intros ->; destruct Eti as (_ & I); apply HF in I; apply I).
    assert (Eti' : if ext then is_branch n = true else n = Leaf [] v) by (destruct ext; [exact Eti|apply Eti]).
    set (len := Nat.max (pred (length G)) cm). assert (Llen : (len < length c)%nat) by lia. assert (Hcd : nth len c 0 < 16) by (now apply nib_nth).
    destruct (split_level c G H T NS O len Op Eb ltac:(lia) Llen) as (G1 & H1 & T1 & NS1 & O1 & g & h & t & ns & LG1 & Op1 & Lv & ENS & EO & Egr & EH & ET & EG).
    assert (Hgb : forall b, N.testbit g b = true -> b < nth len c 0) by (intros b Hb; now apply (lv_mask _ _ _ _ _ _ _ Lv) in Hb).
    pose proof (Forall2_len _ _ _ (lv_nodes _ _ _ _ _ _ _ Lv)) as Lns.
    unfold iteration. rewrite Eg. fold cm. fold len. rewrite (nth_error_nth0 c len Llen). rewrite Egr. assert (Eup : forall f, update len f (G1 ++ [g]) = Some (G1 ++ [f g])) by (intros f; generalize (update_app f G1 g []); rewrite LG1; auto). rewrite Eup.
    set (g' := N.lor g (bit (nth len c 0))).
    set (tree0 := if (length (hb_tree_masks s) <? length c)%nat then resize (length c) (hb_tree_masks s) else hb_tree_masks s).
    set (hash0 := if (length (hb_tree_masks s) <? length c)%nat then resize (length c) (hb_hash_masks s) else hb_hash_masks s).
    assert (M0 : length tree0 = length hash0 /\ (length c <= length hash0)%nat /\ (ext = true -> length hash0 = length c) /\ (forall d, nth d tree0 0 = nth d (hb_tree_masks s) 0) /\ (forall d, nth d hash0 0 = nth d (hb_hash_masks s) 0)).
    { unfold tree0, hash0. destruct (Nat.ltb_spec (length (hb_tree_masks s)) (length c)) as [X|X]; [|repeat split; (lia || auto)]. rewrite !resize_len. split; [reflexivity|]. split; [lia|]. split; [reflexivity|].
      split; intros d; rewrite nth_resize; (destruct (Nat.ltb_spec d (length c)) as [Y|Y]; [reflexivity|rewrite nth_overflow by lia; reflexivity]). }
    destruct M0 as (M1 & M2 & M3 & Mt0 & Mh0).
    destruct (negb (is_empty succ) || negb (is_empty G)) eqn:Emore.
    - (* the entry has a neighbour *)
      destruct (opened_len _ _ _ _ _ _ _ _ Op1) as (LH1 & LT1 & _).
      assert (Hbit : N.testbit h (nth len c 0) = false).
      { destruct (N.testbit h (nth len c 0)) eqn:E; [|reflexivity]. apply (lv_hash _ _ _ _ _ _ _ Lv) in E as (x & X & _). apply in_combine_l, digits_in in X as (_ & X). apply Hgb in X. lia. }
      destruct (short_ok keccak Hk collect F HF HP ext len c v n H1 h T1 t tree0 hash0 (rev (map ref NS)) Llen Nc Bc Bv ltac:(lia) ltac:(lia) Hbit Eti' M1 M2 M3) as (tree1 & hash1 & Esn & L1 & L2 & Nh1 & Nt1).
      { intros C d. rewrite Mh0, (Eh C), EH. reflexivity. }
      { intros C d. rewrite Mt0, (Et C), ET. reflexivity. }
      set (u := tip (skipn (S len) c) n) in *. rewrite Est, Esn.
      assert (Ru : rep (firstn (S len) c) u).
      { apply rep_tip; [rewrite firstn_skipn; exact Er|]. eapply only; [exact Er|lia| |].
        - intros d b x w Hd. apply Eb. lia.
        - intros d b x w Hd Hb I. destruct (Ea d b x w ltac:(lia) Hb I) as (_ & Y). fold cm in Y. lia. }
      assert (Lv' : level (firstn len c) (nth len c 0 + 1) g' (if is_branch u then N.lor h (bit (nth len c 0)) else h) (if stored u then N.lor t (bit (nth len c 0)) else t) (ns ++ [u])).
      { apply level_add; [exact Hcd|exact Lv|]. rewrite <- firstn_S by exact Llen. exact Ru. }
      assert (Eouts : O ++ (if ext then collected c n else []) = O1 ++ outs (firstn len c) g' (ns ++ [u])).
      { unfold g'. rewrite outs_add by assumption. unfold u. rewrite (collected_tip _ _ ext n v Eti'). rewrite EO, <- app_assoc. do 2 f_equal. destruct ext; [|reflexivity]. rewrite <- firstn_S by exact Llen. now rewrite firstn_skipn. }
      assert (Estk : ref u :: rev (map ref NS) = rev (map ref (ns ++ [u])) ++ rev (map ref NS1)) by (rewrite ENS, !map_app, !rev_app_distr; reflexivity).
      destruct ((pred (length G) <=? cm)%nat && negb (is_empty succ)) eqn:EB.
      + (* wait for the next entry *)
        apply andb_true_iff in EB as (EB1 & EB2). apply Nat.leb_le in EB1. assert (Hs : succ <> []) by (destruct succ; discriminate). assert (Elen : len = cm) by lia.
        destruct (Ega Hs) as (_ & Ls & Hlt & N2 & N3). fold cm in Ls, Hlt, N2, N3. destruct (prefix_length_spec succ c) as (Epre & _). fold cm in Epre.
        left. eexists _, (G1 ++ [g']), (H1 ++ [if is_branch u then N.lor h (bit (nth len c 0)) else h]), (T1 ++ [if stored u then N.lor t (bit (nth len c 0)) else t]), (NS1 ++ (ns ++ [u])), (O1 ++ outs (firstn len c) g' (ns ++ [u])).
        split; [exact Hs|]. split; [reflexivity|]. constructor; cbn [hb_groups hb_stack hb_out hb_tree_masks hb_hash_masks].
        * rewrite <- LG1. assert (E1 : firstn (length G1) c = firstn (length G1) succ) by (rewrite LG1, Elen; symmetry; exact Epre). rewrite E1. apply op_snoc.
          -- apply (opened_agree _ _ c succ len); [exact Op1|lia|lia|]. rewrite <- LG1. exact E1.
          -- lia.
          -- rewrite <- E1, LG1. destruct Lv' as [A1 A2 A3 A4]. constructor; try assumption. intros b. rewrite A1. rewrite Elen. split; intros (X & Y); (split; [|exact Y]); [lia|].
             destruct (N.lt_ge_cases (nth cm c 0) b) as [Z|Z]; [|lia]. destruct Y as (y & w & Y). exfalso. apply (N2 b y w Z X Y).
        * reflexivity.
        * rewrite Estk, !map_app, !rev_app_distr. reflexivity.
        * rewrite Eo. destruct collect; [exact Eouts|reflexivity].
        * exact Esm.
        * exact L1.
        * exact Nh1.
        * exact Nt1.
        * right. rewrite last_last. now apply lor_bit_nz.
        * rewrite app_length, LG1, Elen. cbn [length]. intros d b x w Hd. apply N3. lia.
      + (* close the branch *)
        right. assert (HG : length G = S len).
        { apply andb_false_iff in EB. destruct EB as [EB|EB].
          - apply Nat.leb_gt in EB. lia.
          - destruct succ as [|a succ']; [|discriminate]. destruct G as [|a G']; [discriminate|]. change (cm) with 0%nat in len. cbn [length pred] in *. lia. }
        assert (EG' := EG HG). assert (Hg0 : g <> 0). { destruct Ela as [Ela|Ela]; [rewrite Ela in HG; discriminate|]. rewrite EG', last_last in Ela. exact Ela. }
        assert (Lns1 : (1 <= length ns)%nat). { rewrite <- Lns. destruct (digits g) eqn:E; [|cbn; lia]. exfalso. apply Hg0. apply digits_nil; [|exact E]. intros b Hb. apply Hgb in Hb. lia. }
        assert (NL : forall b x w, nth len c 0 < b -> ~ In (firstn len c ++ b :: x, w) F).
        { intros b x w Hb I. destruct (Ea _ _ _ _ Llen Hb I) as (Y1 & Y2). fold cm in Y2. apply andb_false_iff in EB. destruct EB as [EB|EB]; [apply Nat.leb_gt in EB; lia|destruct succ; [congruence|discriminate]]. }
        set (nb := Branch (fill g' digits16 (ns ++ [u]))).
        assert (Rb : rep (firstn len c) nb) by (eapply rep_branch; [exact Hk|exact HF|exact HP|exact Lv'|rewrite app_length; cbn; lia|exact NL]).
        assert (Lns' : length (ns ++ [u]) = length (filter (N.testbit g') digits16)) by (symmetry; apply (Forall2_len _ _ _ (lv_nodes _ _ _ _ _ _ _ Lv'))).
        rewrite Estk. assert (Eng : nth_error (G1 ++ [g']) len = Some g') by (rewrite nth_error_app2, LG1, Nat.sub_diag by lia; reflexivity).
        destruct (close_ok keccak Hk collect F HF HP len c _ g' _ _ (ns ++ [u]) (G1 ++ [g']) tree1 hash1 (rev (map ref NS1)) Lv' ltac:(lia) Llen Eng L1 ltac:(lia)) as (tree2 & hash2 & out & Ecl & Lt2 & Lh2 & Nh2 & Nt2 & Eout & Sm).
        { intros C. rewrite (Nh1 C), (Nt1 C). rewrite !nth_snoc_last, LH1, LT1, LG1, Nat.eqb_refl. auto. }
        { intros C x Hx. apply (Hbig C (firstn len c) _ x Rb). apply used_in. rewrite used_fill by exact Lns'. exact Hx. }
        rewrite Ecl. fold nb in Nt2, Eout |- *. rewrite resize_app by exact LG1.
        assert (Ecol : collected (firstn len c) nb = outs (firstn len c) g' (ns ++ [u]) ++ (if stored nb then [report_of keccak (firstn len c) (fill g' digits16 (ns ++ [u]))] else [])).
        { unfold nb. rewrite collected_branch. f_equal. unfold TrieProofs2.outs, digits. rewrite digits16_iota. symmetry. apply outs_slots. exact Lns'. }
        assert (Eo2 : map as_report (hb_out s ++ out) = if collect then O1 ++ collected (firstn len c) nb else []).
        { rewrite map_app, Eo, Eout. destruct collect; [|reflexivity]. cbn [andb]. rewrite Eouts, Ecol, app_assoc. reflexivity. }
        assert (Epl : pred (length G) = len) by lia. rewrite Epl. destruct (Nat.eq_dec len 0) as [E0|E0].
        * (* the root *)
          rewrite E0 in *. left. eexists. split; [|split; [reflexivity|]].
          -- destruct succ as [|a succ']; [reflexivity|]. apply andb_false_iff in EB. destruct EB as [EB|EB]; [apply Nat.leb_gt in EB; lia|discriminate].
          -- assert (X : NS1 = [] /\ O1 = []). { destruct G1; [|discriminate]. inversion Op1 as [|? ? ? ? ? ? ? ? ? ? ? ? EE]; [auto|]. destruct G0; discriminate. } destruct X as (-> & ->).
             exists nb. cbn [hb_stack hb_out]. split; [exact Rb|]. split; [reflexivity|]. split; [exact Eo2|]. apply Forall_app; split; assumption.
        * right. destruct len as [|len'] eqn:Elen; [congruence|]. rewrite <- Elen in *. clear E0.
          destruct (opened_pop _ _ _ _ _ _ _ _ Op1) as (H' & T' & Op' & EH' & ET' & Lpop & Bpop & Lapop). destruct (opened_len _ _ _ _ _ _ _ _ Op') as (LH' & LT' & _).
          assert (Lf : length (firstn len c) = len) by (rewrite firstn_length; lia).
          assert (Ecm : prefix_length succ (firstn len c) = cm).
          { rewrite prefix_length_firstn. fold cm. apply andb_false_iff in EB. destruct EB as [EB|EB]; [apply Nat.leb_gt in EB; lia|]. destruct succ; [unfold cm; rewrite prefix_length_nil; apply Nat.min_0_r|discriminate]. }
          assert (Fd : forall d, (d < len)%nat -> firstn d (firstn len c) = firstn d c) by (intros d Hd; rewrite firstn_firstn; f_equal; lia).
          assert (Nd : forall d, (d < len)%nat -> nth d (firstn len c) 0 = nth d c 0) by (intros d Hd; now apply nth_firstn).
          eexists _, len, nb, (pop_zeros G1), H', T', NS1, O1. split; [reflexivity|]. split; [exact Llen|]. constructor; cbn [hb_groups hb_stack hb_out hb_tree_masks hb_hash_masks]; rewrite ?Lf.
          -- apply (opened_agree _ _ c _ len); [exact Op'|lia|lia|]. rewrite firstn_firstn. f_equal. lia.
          -- reflexivity.
          -- reflexivity.
          -- exact Eo2.
          -- apply Forall_app; split; assumption.
          -- rewrite !resize_len. reflexivity.
          -- intros _. apply resize_len.
          -- intros C d. rewrite nth_resize, EH'. destruct (Nat.ltb_spec d len) as [X|X].
             ++ rewrite (Nh2 C) by exact X. rewrite (Nh1 C), Nd by exact X. rewrite app_nth1 by lia. reflexivity.
             ++ rewrite nth_overflow by lia. replace (S d =? len)%nat with false by (symmetry; apply Nat.eqb_neq; lia). reflexivity.
          -- intros C d. rewrite nth_resize, ET'. destruct (Nat.ltb_spec d len) as [X|X].
             ++ rewrite (Nt2 C) by exact X. rewrite (Nt1 C), Nd by exact X. rewrite app_nth1 by lia. reflexivity.
             ++ rewrite nth_overflow by lia. replace (S d =? len)%nat with false by (symmetry; apply Nat.eqb_neq; lia). reflexivity.
          -- exact Rb.
          -- reflexivity.
          -- intros Z. rewrite Z in Lf. cbn in Lf. lia.
          -- exact Lapop.
          -- intros d b x w Hd. rewrite Lf in Hd. rewrite Fd, Nd by lia. apply Bpop. lia.
          -- intros d b x w Hd. rewrite Lf in Hd. rewrite Fd, Nd by lia. rewrite Ecm. apply Ea. lia.
          -- intros Hs. cbv zeta. rewrite Ecm, Lf. destruct (Ega Hs) as (_ & Ls & Hlt & N2 & N3). fold cm in Ls, Hlt, N2, N3.
             assert (X : (cm < len)%nat). { apply andb_false_iff in EB. destruct EB as [EB|EB]; [apply Nat.leb_gt in EB; lia|]. destruct succ; [congruence|discriminate]. }
             rewrite Nd, Fd by exact X. auto.
    - (* the only entry that is left *)
      apply orb_false_iff in Emore as (Em1 & Em2). destruct succ; [|discriminate]. destruct G; [|discriminate]. right; left. cbn [is_empty negb andb].
      rewrite andb_false_r. assert (E0 : len = 0%nat) by reflexivity. rewrite E0 in *. clear E0.
      assert (X : NS = [] /\ O = []). { inversion Op as [|? ? ? ? ? ? ? ? ? ? ? ? EE]; [auto|]. destruct G; discriminate. } destruct X as (-> & ->).
      assert (Ru : rep [] (tip c n)).
      { apply rep_tip; [exact Er|]. intros x w I. apply (only c n 0 Er ltac:(lia) Eb) in I; [exact I|]. intros d b y z Hd Hb J. destruct (Ea d b y z ltac:(lia) Hb J) as (Y & _). congruence. }
      rewrite Est. cbn [map rev]. rewrite app_nil_r.
      assert (Esn : exists tree1 hash1, short_node keccak collect ext 0 c v tree0 hash0 (if ext then [ref n] else []) = Some (tree1, hash1, [ref (tip c n)])).
      { unfold short_node. cbn [skipn]. destruct ext; cbn [negb].
        - destruct c as [|c0 c']; [congruence|]. unfold extension_masks. rewrite andb_false_r. rewrite tip_branch by (exact Eti' || discriminate). eexists _, _. rewrite (ext_rlp keccak Hk) by assumption. reflexivity.
        - subst n. cbn [tip]. rewrite app_nil_r. eexists _, _. rewrite (leaf_rlp keccak Hk) by auto. reflexivity. }
      destruct Esn as (tree1 & hash1 & ->). cbn [length pred]. eexists. split; [reflexivity|]. split; [reflexivity|]. exists (tip c n). cbn [hb_stack hb_out]. split; [exact Ru|]. split; [reflexivity|]. rewrite app_nil_r. split; [|exact Esm].
      rewrite Eo. destruct collect; [|reflexivity]. cbn [app]. rewrite (collected_tip _ _ ext n v Eti'). destruct ext; reflexivity.
  Qed.

  Lemma loop_ok : forall fuel ext c succ v s n G H T NS O, (length c < fuel)%nat -> entry ext c succ v s n G H T NS O ->
    exists s', gen_struct_loop keccak fuel collect ext c succ v s = Some s' /\ ((succ <> [] /\ exists G' H' T' NS' O', paused succ s' G' H' T' NS' O') \/ (succ = [] /\ finished s')).
  Proof.
    induction fuel as [|fuel IH]; intros ext c succ v s n G H T NS O Hf E; [lia|]. cbn [gen_struct_loop].
    destruct (iteration_ok _ _ _ _ _ _ _ _ _ _ _ E) as [(s' & G' & H' & T' & NS' & O' & Hs & -> & P)|[(s' & Hs & -> & P)|(s' & m & n' & G' & H' & T' & NS' & O' & -> & Hm & E')]].
    - exists s'. split; [reflexivity|]. left. split; [exact Hs|]. eauto 10.
    - exists s'. split; [reflexivity|]. right. auto.
    - eapply IH; [|exact E']. rewrite firstn_length. lia.
  Qed.
End Step.
