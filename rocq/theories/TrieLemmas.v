(** The trie builder: final statements. *)
From Verif Require Import Base BaseFacts RlpSpec RlpModel RlpProofs UtilModel UtilProofs TrieModel TrieSpec TrieProofs TrieProofs2 TrieProofs3 TrieProofs4 TrieProofs5.

Definition paths (entries : list (bytes * bytes)) : list (list N * bytes) := map (fun e => (nibbles (fst e), snd e)) entries.

Lemma nodup_index {A} (l : list A) i j x : NoDup l -> nth_error l i = Some x -> nth_error l j = Some x -> i = j.
Proof. intros H Hi Hj. rewrite NoDup_nth_error in H. apply H; [apply nth_error_Some; congruence|congruence]. Qed.

Section Valid.
  Variable entries : list (bytes * bytes).
  Hypothesis V : valid_entries entries.
  Lemma v_in k v : In (k, v) (paths entries) -> exists b, k = nibbles b /\ In (b, v) entries /\ wf_bytes b /\ b <> [] /\ blen b < 2 ^ 62 /\ blen v < 2 ^ 62.
  Proof.
    intros H. unfold paths in H. apply in_map_iff in H as ([b w] & E & I). cbn in E. injection E as <- <-. exists b. split; [reflexivity|]. split; [exact I|].
    destruct V as [W S _ _]. rewrite Forall_forall in W, S. destruct (W _ I). destruct (S _ I). auto.
  Qed.
  Lemma v_HF k v : In (k, v) (paths entries) -> nib k /\ blen k < 2 ^ 63 /\ blen v < 2 ^ 62.
  Proof. intros H. apply v_in in H as (b & -> & _ & W & _ & L & L2). split; [now apply nibbles_nib|]. split; [|exact L2]. unfold blen in *. rewrite nibbles_len. lia. Qed.
  Lemma v_Hne k v : In (k, v) (paths entries) -> k <> [].
  Proof. intros H. apply v_in in H as (b & -> & _ & W & Hb & _). intros E. apply (f_equal (@length N)) in E. rewrite nibbles_len in E. destruct b; [congruence|cbn in E; lia]. Qed.
  Lemma v_HS pre a post e : paths entries = pre ++ a :: post -> In e post -> lex_lt (fst a) (fst e) = true.
  Proof.
    intros E I. unfold paths in E. assert (X : exists p1 x p2, entries = p1 ++ x :: p2 /\ pre = paths p1 /\ a = (nibbles (fst x), snd x) /\ post = paths p2).
    { clear - E. revert pre E. induction entries as [|x es IH]; intros pre E; [now destruct pre|]. destruct pre as [|y pre]; cbn in E; injection E as E1 E2.
      - exists [], x, es. auto.
      - destruct (IH pre E2) as (p1 & z & p2 & -> & -> & -> & ->). exists (x :: p1), z, p2. rewrite <- E1. auto. }
    destruct X as (p1 & x & p2 & E1 & -> & -> & ->). unfold paths in I. apply in_map_iff in I as (y & <- & I). cbn [fst].
    destruct V as [W _ O _]. rewrite Forall_forall in W. rewrite nibbles_lex.
    - apply (increasing_strong entries O p1 x p2 y E1 I).
    - apply W. rewrite E1. apply in_or_app. right. now left.
    - apply W. rewrite E1. apply in_or_app. right. now right.
  Qed.
  Lemma v_HP k x v w : In (k, v) (paths entries) -> In (k ++ x, w) (paths entries) -> x = [] /\ v = w.
  Proof.
    intros H1 H2. pose proof (v_in _ _ H1) as (b1 & -> & I1 & W1 & N1 & _). pose proof (v_in _ _ H2) as (b2 & E2 & I2 & W2 & N2 & _).
    destruct (nibbles_prefix b1 b2 x W1 W2 (eq_sym E2)) as (c & -> & ->). apply In_nth_error in I1 as (i & I1). apply In_nth_error in I2 as (j & I2).
    destruct (Nat.eq_dec i j) as [ -> |Hij].
    - rewrite I1 in I2. injection I2 as E ->. split; [|reflexivity]. rewrite <- (app_nil_r b1) in E at 1. apply app_inv_head in E. now subst c.
    - exfalso. apply (ve_prefix _ V i j b1 (b1 ++ c)); [now rewrite nth_error_map, I1|now rewrite nth_error_map, I2|exact Hij|]. exists c. reflexivity.
  Qed.
  Lemma v_holds t : rep (paths entries) [] t -> holds t entries.
  Proof.
    intros (_ & R). split.
    - intros k v I. apply R. cbn [app]. unfold paths. apply in_map_iff. exists (k, v). auto.
    - intros p v G. apply R in G. cbn [app] in G. apply v_in in G as (b & -> & I & _). eauto.
  Qed.
  Lemma holds_rep t : canonical t -> holds t entries -> rep (paths entries) [] t.
  Proof.
    intros C (H1 & H2). split; [exact C|]. intros k v. cbn [app]. split.
    - intros G. apply H2 in G as (b & -> & I). unfold paths. apply in_map_iff. exists (b, v). auto.
    - intros I. apply v_in in I as (b & -> & I & _). now apply H1.
  Qed.
End Valid.

Definition hash_32 (keccak : bytes -> bytes) : Prop := forall b, length (keccak b) = 32%nat /\ wf_bytes (keccak b).

Lemma builder_root keccak entries : hash_32 keccak -> valid_entries entries -> entries <> [] ->
  exists t, canonical t /\ holds t entries /\ build keccak false entries = Some (trie_root keccak t, []).
Proof.
  intros Hk V Hne. destruct entries as [|[k v] es]; [congruence|]. clear Hne.
  destruct (build_ok keccak (fun b => proj1 (Hk b)) false (paths ((k, v) :: es)) (v_HF _ V) (v_HP _ V) (v_HS _ V) (v_Hne _ V) ltac:(discriminate) k v es eq_refl) as (t & root & out & E & R & -> & Eo & _).
  exists t. split; [apply R|]. split; [now apply v_holds|]. rewrite E. destruct out; [reflexivity|discriminate].
Qed.
Lemma holds_unique entries t u : valid_entries entries -> canonical t -> canonical u -> holds t entries -> holds u entries -> t = u.
Proof.
  intros V Ct Cu Ht Hu. apply canonical_unique; [exact Ct|exact Cu|]. intros k v. rewrite (proj2 (holds_rep _ V t Ct Ht) k v), (proj2 (holds_rep _ V u Cu Hu) k v). reflexivity.
Qed.
Lemma builder_reports keccak entries t : hash_32 keccak -> valid_entries entries -> canonical t -> holds t entries -> big_branches keccak t ->
  exists out, build keccak true entries = Some (trie_root keccak t, out) /\ map as_report out = collected keccak [] t /\ Forall small_masks out.
Proof.
  intros Hk V C H B. pose proof (holds_rep _ V t C H) as R. destruct entries as [|[k v] es].
  - exfalso. destruct (canonical_inhabited t C) as (p & v & G). apply R in G. destruct G.
  - destruct (build_ok keccak (fun b => proj1 (Hk b)) true (paths ((k, v) :: es)) (v_HF _ V) (v_HP _ V) (v_HS _ V) (v_Hne _ V) (fun _ => sub_hashed keccak _ t R B) k v es eq_refl) as (u & root & out & E & Ru & -> & Eo & Sm).
    assert (u = t) as -> by (apply canonical_unique; [apply Ru|exact C|]; intros p w; rewrite (proj2 Ru), (proj2 R); reflexivity). exists out. auto.
Qed.

(** ** Hex-prefix encoding *)
Lemma pack_inj k : forall a b, (length a <= k)%nat -> Nat.even (length a) = true -> Nat.even (length b) = true -> nib a -> nib b -> pack a = pack b -> a = b.
Proof.
  induction k as [|k IH]; intros a b L Ea Eb Na Nb E.
  - destruct a; [|cbn in L; lia]. destruct b as [|x [|y b]]; [reflexivity|discriminate|discriminate].
  - destruct a as [|x [|y a]]; [destruct b as [|x [|y b]]; [reflexivity|discriminate|discriminate]|discriminate|]. destruct b as [|x' [|y' b]]; [discriminate|discriminate|].
    cbn [pack] in E. injection E as E1 E2. apply Forall_cons_iff in Na as (Hx & Na). apply Forall_cons_iff in Na as (Hy & Na). apply Forall_cons_iff in Nb as (Hx' & Nb). apply Forall_cons_iff in Nb as (Hy' & Nb).
    assert (x = x') by lia. assert (y = y') by lia. subst. do 2 f_equal. apply IH; try assumption. cbn in L. lia.
Qed.
Lemma HP_inj p q f g : nib p -> nib q -> HP p f = HP q g -> p = q /\ f = g.
Proof.
  intros Np Nq E. unfold HP in E.
  assert (X : forall (l : list N) (f : bool), nib l -> exists h t, (if Nat.even (length l) then (if f then 2 else 0) :: 0 :: l else ((if f then 2 else 0) + 1) :: l) = h :: t
      /\ Nat.even (length (h :: t)) = true /\ nib (h :: t) /\ (if Nat.even (length l) then h = (if f then 2 else 0) /\ t = 0 :: l else h = (if f then 2 else 0) + 1 /\ t = l)).
  { intros l b N. destruct (Nat.even (length l)) eqn:El; eexists _, _; (split; [reflexivity|]).
    - split; [exact El|]. split; [|auto]. constructor; [destruct b; lia|]. constructor; [lia|exact N].
    - split; [cbn [length]; rewrite Nat.even_succ, <- Nat.negb_even, El; reflexivity|]. split; [|auto]. constructor; [destruct b; lia|exact N]. }
  destruct (X p f Np) as (h & t & E1 & Ev1 & N1 & C1). destruct (X q g Nq) as (h' & t' & E2 & Ev2 & N2 & C2).
  replace (pack (h :: t) = pack (h' :: t')) with (pack (h :: t) = pack (h' :: t')) by reflexivity.
  assert (Ep : pack (h :: t) = pack (h' :: t')) by (rewrite <- E1, <- E2; destruct (Nat.even (length p)), (Nat.even (length q)); exact E).
  apply (pack_inj _ _ _ (Nat.le_refl _) Ev1 Ev2 N1 N2) in Ep. injection Ep as -> ->.
  destruct (Nat.even (length p)) eqn:Lp, (Nat.even (length q)) eqn:Lq; destruct C1 as (A1 & B1), C2 as (A2 & B2); rewrite A1 in A2; destruct f, g; try discriminate; try (split; congruence).
Qed.
Lemma path_encoding p t : Forall (fun n => n < 16) p -> encode_path p t = HP p t.
Proof. apply encode_path_HP. Qed.

(** ** The root commits to the content *)
Section Binding.
  Variable keccak : bytes -> bytes.
  Hypothesis Hk : hash_32 keccak.
  Notation node_item := (node_item keccak).
  Notation child := (child keccak).
  Lemma sized_branch cs : sized (Branch cs) <-> forall c, In (Some c) cs -> sized c.
  Proof.
    cbn [sized]. induction cs as [|o cs IH]; [split; [intros _ c []|auto]|]. rewrite IH. destruct o as [c|]; split.
    - intros (A & B) x [E|Hx]; [injection E as <-; exact A|now apply B].
    - intros H. split; [apply H; now left|]. intros x Hx. apply H. now right.
    - intros (_ & B) x [E|Hx]; [discriminate|now apply B].
    - intros H. split; [exact I|]. intros x Hx. apply H. now right.
  Qed.
  Lemma pack_wf k : forall l, (length l <= k)%nat -> nib l -> wf_bytes (pack l).
  Proof.
    induction k as [|k IH]; intros l L N; [destruct l; [constructor|cbn in L; lia]|]. destruct l as [|a [|b l]]; [constructor|constructor|]. cbn [pack]. apply Forall_cons_iff in N as (Ha & N). apply Forall_cons_iff in N as (Hb & N).
    apply wf_cons. split; [lia|]. apply IH; [cbn in L; lia|exact N].
  Qed.
  Lemma HP_wf p f : nib p -> wf_bytes (HP p f).
  Proof. intros N. unfold HP. destruct (Nat.even (length p)); (eapply pack_wf; [apply Nat.le_refl|]); repeat (constructor; [destruct f; lia|]); exact N. Qed.
  Lemma HP_ok p f : nib p -> blen p < 2 ^ 63 -> item_ok (Str (HP p f)).
  Proof. intros N L. split; [now apply HP_wf|]. pose proof (HP_length p f). lia. Qed.
  Lemma child_ok x : item_ok x -> item_ok (child x) /\ blen (RLP (child x)) <= 33.
  Proof.
    intros H. unfold TrieSpec.child. destruct (N.ltb_spec (blen (RLP x)) 32); [split; [exact H|lia]|]. destruct (Hk (RLP x)) as (L & W). split; [split; [exact W|unfold blen; rewrite L; lia]|].
    cbn [RLP]. rewrite rlp_hash by exact L. rewrite blen_cons. unfold blen. rewrite L. lia.
  Qed.
  Lemma node_ok t : canonical t -> sized t -> item_ok (node_item t).
  Proof.
    induction t as [p v|p c IH|cs IH] using mpt_ind'; intros C S; cbn [TrieSpec.node_item]; apply item_ok_lst.
    - destruct S as (N & Lp & W & Lv). pose proof (HP_ok p true N Lp) as I1. pose proof (HP_length p true). split; [constructor; [exact I1|constructor; [split; [exact W|lia]|constructor]]|].
      cbn [map concat RLP]. rewrite !blen_app, blen_nil. pose proof (rlp_str_len keccak (fun b => proj1 (Hk b)) (HP p true) ltac:(lia)). pose proof (rlp_str_len keccak (fun b => proj1 (Hk b)) v ltac:(lia)). lia.
    - destruct C as (_ & _ & C). destruct S as (N & Lp & S). pose proof (HP_ok p false N Lp) as I1. pose proof (HP_length p false). destruct (child_ok _ (IH C S)) as (I2 & L2). split; [constructor; [exact I1|constructor; [exact I2|constructor]]|].
      cbn [map concat]. rewrite !blen_app, blen_nil. change (RLP (Str (HP p false))) with (rlp_str (HP p false)). pose proof (rlp_str_len keccak (fun b => proj1 (Hk b)) (HP p false) ltac:(lia)). lia.
    - apply canonical_branch in C as (L & _ & C). rewrite sized_branch in S. rewrite Forall_forall in IH.
      assert (X : forall o, In o cs -> item_ok match o with Some c => child (node_item c) | None => Str [] end /\ blen (RLP match o with Some c => child (node_item c) | None => Str [] end) <= 33).
      { intros [c|] Ho; [apply child_ok, (IH _ Ho); auto|]. split; [split; [constructor|unfold blen; cbn [length]; lia]|]. change (RLP (Str [])) with [0x80]. unfold blen. cbn [length]. lia. }
      split.
      + apply Forall_app. split; [|constructor; [split; [constructor|unfold blen; cbn [length]; lia]|constructor]]. apply Forall_forall. intros x Hx. apply in_map_iff in Hx as (o & <- & Ho). now apply X.
      + rewrite map_app, concat_app, map_map, blen_app. cbn [map concat]. assert (Y : blen (concat (map (fun o => RLP match o with Some c => child (node_item c) | None => Str [] end) cs)) <= 33 * N.of_nat (length cs)).
        { clear - X. induction cs as [|o cs IH]; [unfold blen; cbn; lia|]. cbn [map concat length]. rewrite blen_app. destruct (X o (or_introl eq_refl)) as (_ & Y). specialize (IH (fun o H => X o (or_intror H))). lia. }
        rewrite L in Y. change (RLP (Str []) ++ []) with [0x80]. unfold blen at 2. cbn [length]. lia.
  Qed.
  Lemma node_lst t : exists l, node_item t = Lst l. Proof. destruct t; eexists; reflexivity. Qed.
  Lemma child_inj t u : canonical t -> canonical u -> sized t -> sized u -> collision_free keccak (encodings keccak t ++ encodings keccak u) ->
    child (node_item t) = child (node_item u) -> RLP (node_item t) = RLP (node_item u).
  Proof.
    intros Ct Cu St Su CF E. destruct (node_lst t) as (lt & Et). destruct (node_lst u) as (lu & Eu). unfold TrieSpec.child in E.
    destruct (_ <? _) in E; destruct (_ <? _) in E; [congruence|rewrite Et in E; discriminate|rewrite Eu in E; discriminate|]. injection E as E. apply CF; [| |exact E]; apply in_or_app; [left|right]; (destruct t + destruct u); now left.
  Qed.
  Lemma sub_enc cs c : In (Some c) cs -> incl (encodings keccak c) (encodings keccak (Branch cs)).
  Proof. intros H x Hx. cbn [encodings]. right. apply in_concat. exists (encodings keccak c). split; [|exact Hx]. apply in_map_iff. exists (Some c). auto. Qed.
  Lemma cf_incl l m : collision_free keccak m -> incl l m -> collision_free keccak l.
  Proof. intros H I a b Ha Hb. apply H; auto. Qed.
  Lemma binding t : canonical t -> sized t -> forall u, canonical u -> sized u -> collision_free keccak (encodings keccak t ++ encodings keccak u) -> RLP (node_item t) = RLP (node_item u) -> t = u.
  Proof.
    induction t as [p v|p c IH|cs IH] using mpt_ind'; intros C S u Cu Su CF E; apply RLP_inj in E; try (now apply node_ok).
    - destruct u as [q w|q d|ds]; cbn [TrieSpec.node_item] in E.
      + injection E as E1 E2. destruct S as (N & _), Su as (N' & _). apply HP_inj in E1 as (-> & _); [now subst|exact N|exact N'].
      + exfalso. injection E as E1 _. destruct S as (N & _), Su as (N' & _). apply HP_inj in E1 as (_ & E1); [discriminate|exact N|exact N'].
      + exfalso. injection E as E. apply canonical_branch in Cu as (L & _). apply (f_equal (@length item)) in E. rewrite app_length, map_length, L in E. discriminate.
    - destruct C as (Hp & Bc & C). destruct S as (N & _ & S). destruct u as [q w|q d|ds]; cbn [TrieSpec.node_item] in E.
      + exfalso. injection E as E1 _. destruct Su as (N' & _). apply HP_inj in E1 as (_ & E1); [discriminate|exact N|exact N'].
      + injection E as E1 E2. destruct Cu as (Hq & Bd & Cu). destruct Su as (N' & _ & Su). apply HP_inj in E1 as (-> & _); [|exact N|exact N']. f_equal.
        assert (CF' : collision_free keccak (encodings keccak c ++ encodings keccak d)) by (eapply cf_incl; [exact CF|]; apply incl_app; [apply incl_appl|apply incl_appr]; intros x Hx; cbn [encodings]; now right).
        apply (IH C S d Cu Su CF'). now apply child_inj.
      + exfalso. injection E as E. apply canonical_branch in Cu as (L & _). apply (f_equal (@length item)) in E. rewrite app_length, map_length, L in E. discriminate.
    - destruct u as [q w|q d|ds]; cbn [TrieSpec.node_item] in E.
      + exfalso. injection E as E. apply canonical_branch in C as (L & _). apply (f_equal (@length item)) in E. rewrite app_length, map_length, L in E. discriminate.
      + exfalso. injection E as E. apply canonical_branch in C as (L & _). apply (f_equal (@length item)) in E. rewrite app_length, map_length, L in E. discriminate.
      + apply canonical_branch in C as (L & _ & C). apply canonical_branch in Cu as (Lu & _ & Cu). rewrite sized_branch in S, Su. injection E as E. apply app_inj_tail in E as (E & _). f_equal. rewrite Forall_forall in IH.
        apply (list_ext None); [congruence|]. intros i. assert (Ei := f_equal (fun l => nth_error l i) E). cbn in Ei. rewrite !nth_error_map in Ei.
        assert (CF' : forall c d, In (Some c) cs -> In (Some d) ds -> collision_free keccak (encodings keccak c ++ encodings keccak d)) by (intros c d Hc Hd; eapply cf_incl; [exact CF|]; apply incl_app; [apply incl_appl|apply incl_appr]; now apply sub_enc).
        assert (NE : forall c, child (node_item c) <> Str []).
        { intros c X. unfold TrieSpec.child in X. destruct (node_lst c) as (l & El). destruct (_ <? _); [rewrite El in X; discriminate|]. injection X as X. destruct (Hk (RLP (node_item c))) as (Lk & _). rewrite X in Lk. discriminate. }
        destruct (nth_error cs i) as [[c|]|] eqn:Ec, (nth_error ds i) as [[d|]|] eqn:Ed; cbn in Ei; try reflexivity; try discriminate; injection Ei as Ei.
        * apply nth_error_In in Ec as Ic. apply nth_error_In in Ed as Id. do 2 f_equal. apply (IH _ Ic); auto. apply child_inj; auto.
        * exfalso. now apply (NE c).
        * exfalso. symmetry in Ei. now apply (NE d).
  Qed.
End Binding.

Lemma entries_ext e1 e2 : valid_entries e1 -> valid_entries e2 -> (forall x, In x e1 <-> In x e2) -> e1 = e2.
Proof.
  intros [_ _ O1 _] [_ _ O2 _]. revert e2 O1 O2. induction e1 as [|[k1 v1] e1 IH]; intros [|[k2 v2] e2] O1 O2 H; [reflexivity|exfalso; apply (proj2 (H (k2, v2))); now left|exfalso; apply (proj1 (H (k1, v1))); now left|].
  assert (A1 : forall e, In e e1 -> lex_lt k1 (fst e) = true) by (intros e He; apply (increasing_strong _ O1 [] (k1, v1) e1 e eq_refl He)).
  assert (A2 : forall e, In e e2 -> lex_lt k2 (fst e) = true) by (intros e He; apply (increasing_strong _ O2 [] (k2, v2) e2 e eq_refl He)).
  assert (E : (k1, v1) = (k2, v2)).
  { destruct (proj1 (H (k1, v1)) (or_introl eq_refl)) as [E|I1]; [now symmetry|]. destruct (proj2 (H (k2, v2)) (or_introl eq_refl)) as [E|I2]; [exact E|]. apply A2 in I1. apply A1 in I2. cbn in I1, I2. apply lex_lt_asym in I1. congruence. }
  rewrite E in *. f_equal. injection E as -> ->. apply IH.
  - cbn in O1. destruct e1; [exact I|apply O1].
  - cbn in O2. destruct e2; [exact I|apply O2].
  - intros x. split; intros Hx.
    + destruct (proj1 (H x) (or_intror Hx)) as [ <- |]; [|assumption]. apply A1 in Hx. cbn in Hx. rewrite lex_lt_irrefl in Hx. discriminate.
    + destruct (proj2 (H x) (or_intror Hx)) as [ <- |]; [|assumption]. apply A2 in Hx. cbn in Hx. rewrite lex_lt_irrefl in Hx. discriminate.
Qed.
Lemma holds_sized entries t : valid_entries entries -> Forall (fun e => wf_bytes (snd e)) entries -> canonical t -> holds t entries -> sized t.
Proof.
  intros V W C H. assert (G : forall k v, get t k = Some v -> nib k /\ blen k < 2 ^ 63 /\ wf_bytes v /\ blen v < 2 ^ 62).
  { intros k v Gk. apply (holds_rep _ V t C H) in Gk. cbn [app] in Gk. pose proof (v_in _ V _ _ Gk) as (b & _ & I & _). destruct (v_HF _ V _ _ Gk) as (A & B & D). rewrite Forall_forall in W. split; [exact A|]. split; [exact B|]. split; [|exact D]. apply (W _ I). }
  clear H V W. induction t as [p v|p c IH|cs IH] using mpt_ind'.
  - cbn [sized]. apply G. now apply get_leaf.
  - cbn [sized]. destruct C as (_ & _ & C). destruct (canonical_inhabited c C) as (k & v & Gk). destruct (G (p ++ k) v) as (A & B & _); [apply get_ext; eauto|]. apply nib_app in A as (A & _). rewrite blen_app in B. split; [exact A|]. split; [lia|].
    apply IH; [exact C|]. intros k' v' G'. destruct (G (p ++ k') v') as (A' & B' & D'); [apply get_ext; eauto|]. apply nib_app in A' as (_ & A'). rewrite blen_app in B'. split; [exact A'|]. split; [lia|exact D'].
  - apply sized_branch. intros c Hc. rewrite Forall_forall in IH. apply canonical_branch in C as (_ & _ & C). apply (IH _ Hc (C _ Hc)). apply In_nth_error in Hc as (i & Hi). intros k v Gk.
    destruct (G (N.of_nat i :: k) v) as (A & B & D); [rewrite get_branch, Nat2N.id, Hi; exact Gk|]. apply Forall_cons_iff in A as (_ & A). rewrite blen_cons in B. split; [exact A|]. split; [lia|exact D].
Qed.
Lemma root_binding keccak e1 e2 t1 t2 root o1 o2 : hash_32 keccak -> valid_entries e1 -> valid_entries e2 -> Forall (fun e => wf_bytes (snd e)) (e1 ++ e2) -> e1 <> [] -> e2 <> [] ->
  canonical t1 -> canonical t2 -> holds t1 e1 -> holds t2 e2 -> collision_free keccak (encodings keccak t1 ++ encodings keccak t2) ->
  build keccak false e1 = Some (root, o1) -> build keccak false e2 = Some (root, o2) -> e1 = e2.
Proof.
  intros Hk V1 V2 W N1 N2 C1 C2 H1 H2 CF B1 B2. apply Forall_app in W as (W1 & W2).
  destruct (builder_root keccak e1 Hk V1 N1) as (u1 & D1 & K1 & F1). destruct (builder_root keccak e2 Hk V2 N2) as (u2 & D2 & K2 & F2).
  rewrite (holds_unique e1 u1 t1 V1 D1 C1 K1 H1) in F1. rewrite (holds_unique e2 u2 t2 V2 D2 C2 K2 H2) in F2. rewrite F1 in B1. rewrite F2 in B2. injection B1 as B1 _. injection B2 as B2 _.
  assert (E : RLP (node_item keccak t1) = RLP (node_item keccak t2)). { unfold trie_root in *. apply CF; [apply in_or_app; left; destruct t1; now left|apply in_or_app; right; destruct t2; now left|congruence]. }
  assert (t1 = t2) as -> by (apply (binding keccak Hk); auto; (eapply holds_sized; [exact V1|exact W1|exact C1|exact H1]) || (eapply holds_sized; [exact V2|exact W2|exact C2|exact H2])).
  assert (Inj : forall a b : bytes, wf_bytes a -> wf_bytes b -> nibbles a = nibbles b -> a = b).
  { intros a b Wa Wb E'. symmetry in E'. rewrite <- (app_nil_r (nibbles a)) in E'. apply nibbles_prefix in E' as (c & -> & E'); [|exact Wa|exact Wb]. destruct c; [now rewrite app_nil_r|discriminate]. }
  apply entries_ext; [exact V1|exact V2|]. intros [k v]. pose proof (ve_bytes _ V1) as Q1. pose proof (ve_bytes _ V2) as Q2. rewrite Forall_forall in Q1, Q2. destruct H1 as (A1 & A2), H2 as (A3 & A4). split; intros I.
  - destruct (A4 _ _ (A1 _ _ I)) as (b & Eb & Ib). rewrite (Inj k b (proj1 (Q1 _ I)) (proj1 (Q2 _ Ib)) Eb). exact Ib.
  - destruct (A2 _ _ (A3 _ _ I)) as (b & Eb & Ib). rewrite (Inj k b (proj1 (Q2 _ I)) (proj1 (Q1 _ Ib)) Eb). exact Ib.
Qed.
