(** The trie builder: closing a branch and adding a short node. *)
From Verif Require Import Base BaseFacts RlpSpec RlpModel RlpProofs UtilModel UtilProofs TrieModel TrieSpec TrieProofs TrieProofs2.

Definition as_report (e : bytes * node) : report :=
  mkReport (fst e) (digits (n_state_mask (snd e))) (digits (n_tree_mask (snd e))) (digits (n_hash_mask (snd e))) (n_hashes (snd e)) (n_root_hash (snd e)).
Definition small_masks (e : bytes * node) : Prop := n_state_mask (snd e) < 2 ^ 16 /\ n_tree_mask (snd e) < 2 ^ 16 /\ n_hash_mask (snd e) < 2 ^ 16.

Lemma Forall2_combine {A B} (R : A -> B -> Prop) l m a b : Forall2 R l m -> In (a, b) (combine l m) -> R a b.
Proof. induction 1 as [|x y l m H F IH]; [intros []|]. cbn. intros [E|E]; [injection E as -> ->; exact H|now apply IH]. Qed.

Lemma combine_fun {A B} (l : list A) : forall (m : list B) d x y, NoDup l -> In (d, x) (combine l m) -> In (d, y) (combine l m) -> x = y.
Proof.
  induction l as [|a l IH]; intros [|b m] d x y ND X Y; cbn in *; try contradiction. inversion ND; subst.
  destruct X as [X|X], Y as [Y|Y]; [congruence|injection X as -> ->; apply in_combine_l in Y; contradiction|injection Y as -> ->; apply in_combine_l in X; contradiction|eapply IH; eassumption].
Qed.

Section Slots.
  Variable keccak : bytes -> bytes.
  Hypothesis Hk : forall b, length (keccak b) = 32%nat.
  Notation ref := (ref keccak).

  Lemma slots_marks f g m : forall k b ns, length ns = length (filter (N.testbit g) (iota b k)) ->
    (forall d, In d (iota b k) -> (N.testbit m d = true <-> exists n, In (d, n) (combine (filter (N.testbit g) (iota b k)) ns) /\ f n = true)) ->
    filter (N.testbit m) (iota b k) = slots_from b f (fill g (iota b k) ns).
  Proof.
    induction k as [|k IH]; intros b ns L H; [reflexivity|]. cbn [iota filter fill] in *.
    assert (Out : forall l (ns' : list mpt) n, l = filter (N.testbit g) (iota (b + 1) k) -> ~ In (b, n) (combine l ns')).
    { intros l ns' n -> X. apply in_combine_l, filter_In in X as (X & _). apply iota_in in X. lia. }
    assert (Hb := H b (or_introl eq_refl)). destruct (N.testbit g b) eqn:Eg.
    - destruct ns as [|n ns]; [discriminate|]. cbn [combine slots_from] in *.
      assert (E : N.testbit m b = f n).
      { destruct (f n) eqn:Ef; [apply Hb; exists n; split; [now left|exact Ef]|]. destruct (N.testbit m b) eqn:Em; [|reflexivity]. destruct Hb as (Hb & _). destruct (Hb eq_refl) as (x & [X|X] & Fx); [injection X as ->; congruence|]. exfalso. eapply Out; [|exact X]. reflexivity. }
      rewrite E. rewrite (IH (b + 1) ns).
      + now destruct (f n).
      + cbn in L. congruence.
      + intros d Hd. rewrite (H d) by now right. pose proof Hd as Hd'. apply iota_in in Hd. split; intros (x & X & Fx); exists x; (split; [|exact Fx]); [|now right]. destruct X as [X|X]; [injection X as -> _; lia|exact X].
    - assert (E : N.testbit m b = false). { destruct (N.testbit m b) eqn:Em; [|reflexivity]. destruct Hb as (Hb & _). destruct (Hb eq_refl) as (x & X & _). exfalso. eapply Out; [|exact X]. reflexivity. }
      rewrite E. cbn [slots_from app]. apply IH; [exact L|]. intros d Hd. apply H. now right.
  Qed.
  Lemma slots_true g : forall k b ns, length ns = length (filter (N.testbit g) (iota b k)) -> filter (N.testbit g) (iota b k) = slots_from b (fun _ => true) (fill g (iota b k) ns).
  Proof.
    induction k as [|k IH]; intros b ns L; [reflexivity|]. cbn [iota filter fill] in *. destruct (N.testbit g b).
    - destruct ns as [|n ns]; [discriminate|]. cbn. f_equal. apply IH. cbn in L. congruence.
    - cbn. now apply IH.
  Qed.
  Fixpoint collected_slots (path : list N) (b : N) (l : list (option mpt)) : list report :=
    match l with
    | [] => []
    | o :: l' => (match o with Some c => collected keccak (path ++ [b]) c | None => [] end) ++ collected_slots path (b + 1) l'
    end.
  Lemma collected_branch path cs : collected keccak path (Branch cs) = collected_slots path 0 cs ++ (if stored (Branch cs) then [report_of keccak path cs] else []).
  Proof. cbn [collected]. f_equal. generalize 0. induction cs as [|o cs IH]; intros b; [reflexivity|]. cbn. now rewrite IH. Qed.
  Lemma outs_slots path g : forall k b ns, length ns = length (filter (N.testbit g) (iota b k)) ->
    concat (map (fun e => collected keccak (path ++ [fst e]) (snd e)) (combine (filter (N.testbit g) (iota b k)) ns)) = collected_slots path b (fill g (iota b k) ns).
  Proof.
    induction k as [|k IH]; intros b ns L; [reflexivity|]. cbn [iota filter fill] in *. destruct (N.testbit g b).
    - destruct ns as [|n ns]; [discriminate|]. cbn. f_equal. apply IH. cbn in L. congruence.
    - cbn. now apply IH.
  Qed.
  Lemma unwrap_slots g h : forall ds ns, length ns = length (filter (N.testbit g) ds) ->
    (forall d n, In (d, n) (combine (filter (N.testbit g) ds) ns) -> N.testbit h d = is_branch n /\ (is_branch n = true -> 32 <= blen (RLP (node_item keccak n)))) ->
    unwrap (concat (map (fun e : N * option mpt => match snd e with Some c => if N.testbit h (fst e) then [ref c] else [] | None => [] end) (combine ds (fill g ds ns))))
    = Some (map (trie_root keccak) (filter is_branch ns)).
  Proof.
    induction ds as [|d ds IH]; intros ns L H; cbn [filter fill] in *; [destruct ns; [reflexivity|discriminate]|]. destruct (N.testbit g d).
    - destruct ns as [|n ns]; [discriminate|]. cbn [combine map concat fst snd filter] in *. destruct (H d n (or_introl eq_refl)) as (E & B). rewrite E.
      assert (R := IH ns ltac:(cbn in L; congruence) (fun d n X => H d n (or_intror X))). destruct (is_branch n); [|exact R]. cbn [app unwrap].
      destruct (ref_cases keccak Hk n) as [(X & _)|(_ & ->)]; [specialize (B eq_refl); lia|]. rewrite blen_cons. unfold blen. rewrite Hk. cbn [N.of_nat N.add N.eqb Pos.of_succ_nat Pos.eqb]. change (1 + N.of_nat 32 =? 33) with true. cbv iota. rewrite R. reflexivity.
    - cbn. now apply IH.
  Qed.
  Lemma existsb_slots f b cs : existsb (fun o => match o with Some c => f c | None => false end) cs = negb (is_empty (slots_from b f cs)).
  Proof. revert b. induction cs as [|o cs IH]; intros b; [reflexivity|]. cbn. rewrite (IH (b + 1)). destruct o as [c|]; [destruct (f c)|]; reflexivity. Qed.
  Lemma stored_branch cs : stored (Branch cs) = negb (is_empty (slots_from 0 stored cs)) || negb (is_empty (slots_from 0 is_branch cs)).
  Proof.
    rewrite <- !existsb_slots. cbn [stored]. induction cs as [|o cs IH]; [reflexivity|]. cbn. rewrite IH. destruct o as [c|]; [|reflexivity]. now destruct (is_branch c), (stored c), (existsb _ cs), (existsb _ cs).
  Qed.
End Slots.

  Lemma digits16_nth b : b < 16 -> nth_error digits16 (N.to_nat b) = Some b.
  Proof.
    intros H. rewrite <- (N2Nat.id b) at 2. assert (L : (N.to_nat b < 16)%nat) by lia. revert L. generalize (N.to_nat b). clear. intros n L. do 16 (destruct n as [|n]; [reflexivity|]). lia.
  Qed.
  Lemma marks_digits f g ns m : length ns = length (digits g) -> marks f g ns m -> digits m = slots_from 0 f (fill g digits16 ns) /\ (forall b, N.testbit m b = true -> b < 16).
  Proof.
    intros L M. split.
    - unfold digits. rewrite digits16_iota. apply slots_marks; [exact L|]. intros d _. apply M.
    - intros b Hb. apply M in Hb as (n & I & _). apply in_combine_l, digits_in in I. apply I.
  Qed.
  Lemma nz_digits m l : (forall b, N.testbit m b = true -> b < 16) -> digits m = l -> negb (m =? 0) = negb (is_empty l).
  Proof. intros B <-. pose proof (digits_nil m B) as D. destruct (N.eqb_spec m 0) as [->|Hn]; [reflexivity|]. destruct (digits m); [exfalso; apply Hn, D; reflexivity|reflexivity]. Qed.
  Lemma ldiff_id m d : d < 16 -> N.testbit m d = false -> N.ldiff m (bit d) = m.
  Proof. intros Hd E. apply N.bits_inj. intros b. rewrite N.ldiff_spec, bit_test by exact Hd. destruct (N.eqb_spec b d) as [->|]; cbn; [now rewrite E|apply andb_true_r]. Qed.
  Lemma lor_bit_nz m d : d < 16 -> N.lor m (bit d) <> 0.
  Proof. intros Hd E. assert (X : N.testbit (N.lor m (bit d)) d = true) by (rewrite N.lor_spec, bit_test, N.eqb_refl by exact Hd; apply orb_true_r). rewrite E, N.bits_0 in X. discriminate. Qed.
  Lemma nth_snoc_last (l : list N) x d : nth d (l ++ [x]) 0 = if (d =? length l)%nat then x else nth d l 0.
  Proof.
    destruct (Nat.eqb_spec d (length l)) as [->|Hn]; [rewrite app_nth2, Nat.sub_diag by lia; reflexivity|]. destruct (Nat.lt_ge_cases d (length l)); [now apply app_nth1|].
    rewrite !nth_overflow; [reflexivity|lia|rewrite app_length; cbn; lia].
  Qed.
  Lemma tip_branch q n : is_branch n = true -> q <> [] -> tip q n = Ext q n.
  Proof. destruct n; try discriminate. destruct q; [congruence|reflexivity]. Qed.
  Lemma tip_nil n : is_branch n = true -> tip [] n = n.
  Proof. destruct n; try discriminate. reflexivity. Qed.
Section Close.
  Variable keccak : bytes -> bytes.
  Hypothesis Hk : forall b, length (keccak b) = 32%nat.
  Variable collect : bool.
  Variable F : list (list N * bytes).
  Hypothesis HF : forall k v, In (k, v) F -> nib k /\ blen k < 2 ^ 63 /\ blen v < 2 ^ 62.
  Hypothesis HP : forall k x v w, In (k, v) F -> In (k ++ x, w) F -> x = [] /\ v = w.
  Notation ref := (ref keccak).
  Notation rep := (rep F).
  Notation level := (level F).

  Lemma rep_branch p cd g h t ns : level p (cd + 1) g h t ns -> (2 <= length ns)%nat -> (forall b x v, cd < b -> ~ In (p ++ b :: x, v) F) -> rep p (Branch (fill g digits16 ns)).
  Proof.
    intros [M Ns _ _] L2 NL. pose proof (Forall2_len _ _ _ Ns) as L. assert (L' : length ns = length (filter (N.testbit g) digits16)) by (now rewrite <- L). split.
    - apply canonical_branch. rewrite fill_length, used_fill by exact L'. split; [reflexivity|]. split; [exact L2|]. intros c Hc. apply used_in in Hc. rewrite used_fill in Hc by exact L'.
      clear - Ns Hc. induction Ns as [|b n l m R Ns IH]; [destruct Hc|]. destruct Hc as [ <- |Hc]; [apply R|now apply IH].
    - intros [|b x] v.
      + split; [discriminate|]. rewrite app_nil_r. intros H. exfalso. destruct ns as [|n ns]; [cbn in L2; lia|]. inversion Ns as [|d n' l m R]; subst. destruct (rep_some _ _ _ R) as (k & w & X). rewrite <- app_assoc in X. destruct (HP _ _ _ _ H X) as (E & _). discriminate.
      + rewrite get_branch. destruct (N.lt_ge_cases b 16) as [Hb|Hb].
        * destruct (fill_nth g digits16 ns (N.to_nat b) b L' (digits16_nth b Hb)) as (A & B). destruct (N.testbit g b) eqn:E.
          -- destruct (B eq_refl) as (n & -> & I). pose proof (Forall2_combine _ _ _ _ _ Ns I) as (_ & R). cbn in R. rewrite R, <- app_assoc. reflexivity.
          -- rewrite (A eq_refl). split; [discriminate|]. intros X. exfalso. assert (N.testbit g b = true); [|congruence]. apply M. split; [|eauto]. destruct (N.lt_ge_cases cd b); [|lia]. exfalso. eapply NL; eassumption.
        * replace (nth_error (fill g digits16 ns) (N.to_nat b)) with (@None (option mpt)) by (symmetry; apply nth_error_None; rewrite fill_length; cbn; lia).
          split; [discriminate|]. intros X. apply HF in X as (X & _). apply nib_app in X as (_ & X). apply Forall_cons_iff in X as (X & _). lia.
  Qed.


  Lemma close_ok len c cd g h t ns groups tree hash rest : level (firstn len c) cd g h t ns -> cd <= 16 -> (len < length c)%nat -> nth_error groups len = Some g ->
    length tree = length hash -> (len < length hash)%nat -> (collect = true -> nth len hash 0 = h /\ nth len tree 0 = t) ->
    (collect = true -> forall n, In n ns -> is_branch n = true -> 32 <= blen (RLP (node_item keccak n))) ->
    let n := Branch (fill g digits16 ns) in
    exists tree' hash' out, close_group keccak collect len c groups tree hash (rev (map ref ns) ++ rest) = Some (tree', hash', ref n :: rest, out)
      /\ length tree' = length tree /\ length hash' = length hash
      /\ (collect = true -> forall d, (d < len)%nat -> nth d hash' 0 = N.lor (nth d hash 0) (if (S d =? len)%nat then bit (nth d c 0) else 0))
      /\ (collect = true -> forall d, (d < len)%nat -> nth d tree' 0 = N.lor (nth d tree 0) (if (S d =? len)%nat && stored n then bit (nth d c 0) else 0))
      /\ map as_report out = (if collect && stored n then [report_of keccak (firstn len c) (fill g digits16 ns)] else []) /\ Forall small_masks out.
  Proof.
    intros [M Ns Mh Mt] Hcd Hlen Eg Lth Lh Em Hbig n. pose proof (Forall2_len _ _ _ Ns) as L. assert (L' : length ns = length (filter (N.testbit g) digits16)) by (now rewrite <- L).
    unfold close_group. rewrite Eg, (nth_error_nth0 hash) by exact Lh. rewrite (branch_rlp keccak Hk) by (now rewrite <- L). fold n.
    destruct collect; [|exists tree, hash, []; repeat split; try discriminate; constructor].
    destruct (Em eq_refl) as (E1 & E2). rewrite E1. unfold collect_node.
    assert (Hh : exists hash', (if (0 <? len)%nat then update (len - 1) (fun m => N.lor m (bit (nth (len - 1) c 0))) hash else Some hash) = Some hash' /\ length hash' = length hash
      /\ (forall d, (d < len)%nat -> nth d hash' 0 = N.lor (nth d hash 0) (if (S d =? len)%nat then bit (nth d c 0) else 0)) /\ nth len hash' 0 = nth len hash 0).
    { destruct (Nat.ltb_spec 0 len) as [P|P]; [|exists hash; split; [reflexivity|split; [reflexivity|split; [lia|reflexivity]]]].
      destruct (update_nth (len - 1) (fun m => N.lor m (bit (nth (len - 1) c 0))) hash ltac:(lia)) as (l' & E & Ll & A). exists l'. split; [exact E|split; [exact Ll|split]].
      - intros d Hd. rewrite A. destruct (Nat.eqb_spec d (len - 1)) as [->|Hn]; [destruct (Nat.eqb_spec (S (len - 1)) len); [reflexivity|lia]|]. destruct (Nat.eqb_spec (S d) len); [lia|now rewrite N.lor_0_r].
      - rewrite A. destruct (Nat.eqb_spec len (len - 1)); [lia|reflexivity]. }
    destruct Hh as (hash' & Eh & Lh' & Nh & Nl). rewrite Eh. rewrite (nth_error_nth0 tree) by lia. rewrite (nth_error_nth0 hash') by lia. rewrite Nl, E1, E2.
    destruct (marks_digits _ _ _ _ (eq_sym L) Mh) as (Dh & Bh). destruct (marks_digits _ _ _ _ (eq_sym L) Mt) as (Dt & Bt).
    assert (St : negb (t =? 0) || negb (h =? 0) = stored n) by (unfold n; rewrite stored_branch, (nz_digits t _ Bt Dt), (nz_digits h _ Bh Dh); reflexivity).
    rewrite St. destruct (stored n) eqn:Es.
    - assert (Ht : exists tree', (if (0 <? len)%nat then update (len - 1) (fun m => N.lor m (bit (nth (len - 1) c 0))) tree else Some tree) = Some tree' /\ length tree' = length tree
        /\ (forall d, (d < len)%nat -> nth d tree' 0 = N.lor (nth d tree 0) (if (S d =? len)%nat then bit (nth d c 0) else 0))).
      { destruct (Nat.ltb_spec 0 len) as [P|P]; [|exists tree; split; [reflexivity|split; [reflexivity|lia]]].
        destruct (update_nth (len - 1) (fun m => N.lor m (bit (nth (len - 1) c 0))) tree ltac:(lia)) as (l' & E & Ll & A). exists l'. split; [exact E|split; [exact Ll|]].
        intros d Hd. rewrite A. destruct (Nat.eqb_spec d (len - 1)) as [->|Hn]; [destruct (Nat.eqb_spec (S (len - 1)) len); [reflexivity|lia]|]. destruct (Nat.eqb_spec (S d) len); [lia|now rewrite N.lor_0_r]. }
      destruct Ht as (tree' & Et & Lt' & Nt). rewrite Et. rewrite (unwrap_slots keccak Hk); [|exact L'|].
      2: { intros d x X. split; [|apply Hbig; [reflexivity|]; now apply in_combine_r in X]. destruct (is_branch x) eqn:Ex; [apply Mh; eauto|]. destruct (N.testbit h d) eqn:Ed; [|reflexivity].
        apply Mh in Ed as (y & Y & Ey). assert (x = y); [|congruence]. eapply combine_fun; [|exact X|exact Y]. apply NoDup_filter. repeat (constructor; [cbn; intuition discriminate|]). constructor. }
      exists tree', hash', [(firstn len c, mkNode g t h (map (trie_root keccak) (filter is_branch ns)) (if (len =? 0)%nat then Some (stack_root keccak (ref n :: rest)) else None))].
      split; [reflexivity|]. split; [exact Lt'|]. split; [exact Lh'|]. split; [intros _; exact Nh|]. split; [intros _ d Hd; rewrite andb_true_r; now apply Nt|]. cbn [andb].
      split; [|constructor; [|constructor]].
      + cbn [map]. unfold as_report, report_of. cbn [fst snd n_state_mask n_tree_mask n_hash_mask n_hashes n_root_hash]. rewrite Dh, Dt, used_fill by exact L'. pose proof (slots_true g 16 0 ns L') as ST. change (iota 0 16) with digits16 in ST. rewrite <- ST. unfold digits. f_equal. f_equal.
        destruct len as [|len]; cbn [Nat.eqb]; [cbn [firstn]; f_equal; unfold stack_root; apply (ref_root keccak Hk)|]. destruct c as [|a c]; [cbn in Hlen; lia|]. reflexivity.
      + unfold small_masks. cbn. split; [|split; now apply mask_small]. apply mask_small. intros b Hb. apply M in Hb as (Hb & _). lia.
    - exists tree, hash', []. split; [reflexivity|]. split; [reflexivity|]. split; [exact Lh'|]. split; [intros _; exact Nh|]. split; [|split; [reflexivity|constructor]]. intros _ d Hd. rewrite andb_false_r. now rewrite N.lor_0_r.
  Qed.



  Lemma short_ok ext len c v n H1 h T1 t tree hash rest : (len < length c)%nat -> nib c -> blen c < 2 ^ 63 -> (ext = false -> blen v < 2 ^ 62) ->
    length H1 = len -> length T1 = len -> N.testbit h (nth len c 0) = false ->
    (if ext then is_branch n = true else n = Leaf [] v) -> length tree = length hash -> (length c <= length hash)%nat -> (ext = true -> length hash = length c) ->
    (collect = true -> forall d, nth d hash 0 = N.lor (nth d (H1 ++ [h]) 0) (if ext && (S d =? length c)%nat then bit (nth d c 0) else 0)) ->
    (collect = true -> forall d, nth d tree 0 = N.lor (nth d (T1 ++ [t]) 0) (if ext && (S d =? length c)%nat && stored n then bit (nth d c 0) else 0)) ->
    let u := tip (skipn (S len) c) n in
    exists tree' hash', short_node keccak collect ext (S len) c v tree hash ((if ext then [ref n] else []) ++ rest) = Some (tree', hash', ref u :: rest)
      /\ length tree' = length hash' /\ (S len <= length hash')%nat
      /\ (collect = true -> forall d, nth d hash' 0 = nth d (H1 ++ [if is_branch u then N.lor h (bit (nth len c 0)) else h]) 0)
      /\ (collect = true -> forall d, nth d tree' 0 = nth d (T1 ++ [if stored u then N.lor t (bit (nth len c 0)) else t]) 0).
  Proof.
    intros Hlen Nc Bc Bv LH LT Hbit Hn Lth Lge Lext Mh Mt u. unfold short_node. destruct ext; cbn [negb].
    - assert (Hd : nth len c 0 < 16) by (now apply nib_nth). destruct (skipn (S len) c) as [|q0 q] eqn:Eq.
      + (* no extension *)
        assert (Ec : length c = S len) by (apply (f_equal (@length N)) in Eq; rewrite skipn_length in Eq; cbn in Eq; lia).
        assert (Eu : u = n) by (unfold u; now apply tip_nil). rewrite Eu. exists tree, hash. split; [reflexivity|]. split; [exact Lth|]. split; [lia|]. rewrite Hn. split.
        * intros C d. rewrite (Mh C). rewrite !nth_snoc_last, LH. cbn [andb]. destruct (Nat.eqb_spec (S d) (length c)) as [E|E]; (destruct (Nat.eqb_spec d len) as [E'|E']; try lia); [subst d; reflexivity|now rewrite N.lor_0_r].
        * intros C d. rewrite (Mt C). rewrite !nth_snoc_last, LT. cbn [andb]. destruct (Nat.eqb_spec (S d) (length c)) as [E|E]; (destruct (Nat.eqb_spec d len) as [E'|E']; try lia); cbn [andb]; [subst d; destruct (stored n); [reflexivity|now rewrite N.lor_0_r]|now rewrite N.lor_0_r].
      + (* extension *)
        assert (Ec : (S len < length c)%nat) by (apply (f_equal (@length N)) in Eq; rewrite skipn_length in Eq; cbn in Eq; lia).
        assert (Eu : u = Ext (q0 :: q) n) by (unfold u; now apply tip_branch). rewrite Eu. cbn [is_branch stored app].
        assert (Er : node_ref keccak (extension_node_rlp (q0 :: q) (ref n)) = ref (Ext (q0 :: q) n)).
        { apply (ext_rlp keccak Hk); [rewrite <- Eq; now apply nib_skipn|]. rewrite <- Eq. unfold blen in *. rewrite skipn_length. lia. }
        assert (EM : exists tree' hash', extension_masks collect (S len) c tree hash = Some (tree', hash') /\ length tree' = length tree /\ length hash' = length hash
          /\ (collect = true -> forall d, (d <= len)%nat -> nth d hash' 0 = nth d (H1 ++ [h]) 0)
          /\ (collect = true -> forall d, (d <= len)%nat -> nth d tree' 0 = nth d (T1 ++ [if stored n then N.lor t (bit (nth len c 0)) else t]) 0)).
        { unfold extension_masks. destruct collect; [|exists tree, hash; repeat split; discriminate]. cbn [andb Nat.ltb Nat.leb]. replace (S len - 1)%nat with len by lia.
          destruct (update_nth len (fun m => N.ldiff m (bit (nth len c 0))) hash ltac:(lia)) as (hash' & Eh & Lh & Nh). rewrite Eh. rewrite (nth_error_nth0 tree) by lia.
          rewrite (Mt eq_refl). rewrite nth_overflow by (rewrite app_length; cbn; lia). cbn [andb]. replace (S (length c - 1) =? length c)%nat with true by (symmetry; apply Nat.eqb_eq; lia). rewrite N.lor_0_l.
          assert (Hh : forall d, (d <= len)%nat -> nth d hash' 0 = nth d (H1 ++ [h]) 0).
          { intros d Hdl. rewrite Nh, !(Mh eq_refl). cbn [andb]. replace (S len =? length c)%nat with false by (symmetry; apply Nat.eqb_neq; lia). replace (S d =? length c)%nat with false by (symmetry; apply Nat.eqb_neq; lia). rewrite !N.lor_0_r.
            destruct (Nat.eqb_spec d len) as [->|]; [|reflexivity]. rewrite nth_snoc_last, LH, Nat.eqb_refl. now apply ldiff_id. }
          assert (Hb : nth (length c - 1) c 0 < 16) by (apply nib_nth; [exact Nc|lia]). cbn [andb]. destruct (stored n) eqn:Es.
          - assert (Z : (bit (nth (length c - 1) c 0) =? 0) = false) by (apply N.eqb_neq; rewrite <- (N.lor_0_l (bit _)); now apply lor_bit_nz). rewrite Z. cbn [negb].
            destruct (update_nth len (fun m => N.lor m (bit (nth len c 0))) tree ltac:(lia)) as (tree' & Et & Lt & Nt). rewrite Et. exists tree', hash'. split; [reflexivity|]. split; [exact Lt|]. split; [exact Lh|]. split; [intros _; exact Hh|]. intros _ d Hdl.
            rewrite Nt, !(Mt eq_refl). rewrite !nth_snoc_last, LT, Nat.eqb_refl. replace (S len =? length c)%nat with false by (symmetry; apply Nat.eqb_neq; lia). replace (S d =? length c)%nat with false by (symmetry; apply Nat.eqb_neq; lia). cbn [andb]. rewrite !N.lor_0_r.
            destruct (Nat.eqb_spec d len); reflexivity.
          - exists tree, hash'. split; [reflexivity|]. split; [reflexivity|]. split; [exact Lh|]. split; [intros _; exact Hh|]. intros _ d Hdl. rewrite (Mt eq_refl), andb_false_r. now rewrite N.lor_0_r. }
        destruct EM as (tree' & hash' & -> & Lt & Lh & Nh & Nt). rewrite Er. exists (resize (S len) tree'), (resize (S len) hash'). split; [reflexivity|]. rewrite !resize_len. split; [reflexivity|]. split; [lia|].
        split; intros C d; rewrite nth_resize; destruct (Nat.ltb_spec d (S len)) as [L|L]; [apply Nh; [exact C|lia]|rewrite nth_overflow; [reflexivity|rewrite app_length; cbn; lia]|apply Nt; [exact C|lia]|rewrite nth_overflow; [reflexivity|rewrite app_length; cbn; lia]].
    - subst n. assert (Eu : u = Leaf (skipn (S len) c) v) by (unfold u; cbn [tip]; now rewrite app_nil_r). rewrite Eu. exists tree, hash. cbn [app is_branch stored]. split.
      + do 3 f_equal. apply (leaf_rlp keccak Hk); [now apply nib_skipn|unfold blen in *; rewrite skipn_length; lia|now apply Bv].
      + split; [exact Lth|]. split; [lia|]. split; intros C d; [rewrite (Mh C)|rewrite (Mt C)]; cbn [andb]; now rewrite N.lor_0_r.
  Qed.
End Close.
