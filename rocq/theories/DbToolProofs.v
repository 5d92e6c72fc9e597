(** Proofs about the database tool. *)
From Coq Require Import Sorting.Sorted.
From stdpp Require Import gmap.
From Verif Require Import Base BaseFacts DbTable DbModel HashStateModel HashStateProofs DbToolModel DbToolSpec.

(** ** Walks *)
Lemma each_first {S} (func : S -> entry -> bool * S) data l : forall s, each_loop func data l s = walk func (repeat data (length l)) s.
Proof. induction l as [|e l IH]; intros s; [reflexivity|]. cbn [each_loop length repeat walk]. destruct (func s data) as [[|] s']; [|reflexivity]. now rewrite IH. Qed.
Lemma for_each_first {S} (func : S -> entry -> bool * S) d l s : for_each (d :: l) func s = walk func (repeat d (length (d :: l))) s.
Proof. apply each_first. Qed.
Lemma walk_count {S} (func : S -> entry -> bool * S) l : (forall s e, fst (func s e) = true) -> forall s, fst (walk func l s) = N.of_nat (length l).
Proof.
  intros H. induction l as [|e l IH]; intros s; [reflexivity|]. cbn [walk]. pose proof (H s e) as T. destruct (func s e) as [b s']. cbn [fst] in T. subst b. specialize (IH s'). destruct (walk func l s') as [n s'']. cbn [fst] in *. cbn [length]. lia.
Qed.
Lemma for_each_count {S} (func : S -> entry -> bool * S) l s : (forall s e, fst (func s e) = true) -> fst (for_each l func s) = N.of_nat (length l).
Proof. intros H. destruct l as [|d l]; [reflexivity|]. rewrite for_each_first, walk_count by exact H. now rewrite repeat_length. Qed.
Lemma for_each_same {S} (func : S -> entry -> bool * S) l s : (forall e e', In e l -> In e' l -> e = e') -> for_each l func s = walk func l s.
Proof.
  intros H. destruct l as [|d l]; [reflexivity|]. rewrite for_each_first. f_equal. cbn [length repeat]. f_equal. symmetry. apply Forall_eq_repeat. apply Forall_forall. intros x Hx. apply H; [now left|right; first [exact Hx|now apply elem_of_list_In]].
Qed.

(** for_count: [k] calls when there are at most [k] records. *)
Lemma count_enough {S} (func : S -> entry -> bool * S) data : (forall s e, fst (func s e) = true) -> forall k l s fuel,
  (length l <= k)%nat -> N.of_nat k < 2 ^ 64 -> (k < fuel)%nat -> count_loop fuel func data l (N.of_nat k) s = Some (walk func (repeat data k) s).
Proof.
  intros H. induction k as [|k IH]; intros l s fuel Hl Hk Hf; (destruct fuel as [|fuel]; [lia|]); cbn [count_loop].
  - destruct l; [reflexivity|cbn in Hl; lia].
  - replace (N.of_nat (Datatypes.S k) =? 0) with false by (symmetry; apply N.eqb_neq; lia). cbn [negb orb repeat walk]. pose proof (H s data) as T. destruct (func s data) as [b s']. cbn [fst] in T. subst b.
    replace ((N.of_nat (Datatypes.S k) + 2 ^ 64 - 1) mod 2 ^ 64) with (N.of_nat k).
    2: { replace (N.of_nat (Datatypes.S k) + 2 ^ 64 - 1) with (N.of_nat k + 1 * 2 ^ 64) by lia. rewrite N.mod_add by discriminate. symmetry. apply N.mod_small. lia. }
    rewrite IH; [|destruct l; cbn in *; lia|lia|lia]. destruct (walk func (repeat data k) s') as [n s'']. reflexivity.
Qed.
Lemma count_runs {S} (func : S -> entry -> bool * S) data : (forall s e, fst (func s e) = true) -> forall fuel l k s,
  N.of_nat fuel <= k -> k < 2 ^ 64 -> count_loop fuel func data l k s = None.
Proof.
  intros H. induction fuel as [|fuel IH]; intros l k s Hf Hk; [reflexivity|]. cbn [count_loop]. replace (k =? 0) with false by (symmetry; apply N.eqb_neq; lia). cbn [negb orb].
  pose proof (H s data) as T. destruct (func s data) as [b s']. cbn [fst] in T. subst b. replace ((k + 2 ^ 64 - 1) mod 2 ^ 64) with (k - 1).
  2: { replace (k + 2 ^ 64 - 1) with ((k - 1) + 1 * 2 ^ 64) by lia. rewrite N.mod_add by discriminate. symmetry. apply N.mod_small. lia. }
  now rewrite IH by lia.
Qed.
Lemma count_overruns {S} (func : S -> entry -> bool * S) data : (forall s e, fst (func s e) = true) -> forall k l s fuel,
  (k < length l)%nat -> N.of_nat k < 2 ^ 64 -> N.of_nat fuel <= N.of_nat k + 2 ^ 64 -> count_loop fuel func data l (N.of_nat k) s = None.
Proof.
  intros H. induction k as [|k IH]; intros l s fuel Hl Hk Hf; (destruct fuel as [|fuel]; [reflexivity|]); cbn [count_loop].
  - destruct l as [|e l]; [cbn in Hl; lia|]. cbn [N.of_nat N.eqb negb orb]. pose proof (H s data) as T. destruct (func s data) as [b s']. cbn [fst] in T. subst b.
    change ((0 + 2 ^ 64 - 1) mod 2 ^ 64) with (2 ^ 64 - 1). now rewrite count_runs by (try exact H; lia).
  - replace (N.of_nat (Datatypes.S k) =? 0) with false by (symmetry; apply N.eqb_neq; lia). cbn [negb orb]. pose proof (H s data) as T. destruct (func s data) as [b s']. cbn [fst] in T. subst b.
    replace ((N.of_nat (Datatypes.S k) + 2 ^ 64 - 1) mod 2 ^ 64) with (N.of_nat k).
    2: { replace (N.of_nat (Datatypes.S k) + 2 ^ 64 - 1) with (N.of_nat k + 1 * 2 ^ 64) by lia. rewrite N.mod_add by discriminate. symmetry. apply N.mod_small. lia. }
    rewrite IH; [reflexivity|destruct l; cbn in *; lia|lia|lia].
Qed.

(** ** freelist and scan *)
Lemma walk_free ps l : forall r, f_pages (snd (walk (collect_free ps) l r)) mod 2 ^ 64 = (f_pages r + sum (map pages_of l)) mod 2 ^ 64.
Proof.
  induction l as [|e l IH]; intros r; [cbn; now rewrite N.add_0_r|]. cbn [walk collect_free map sum]. specialize (IH (snd (collect_free ps r e))). cbn [collect_free snd] in IH.
  destruct (walk (collect_free ps) l _) as [n r']. cbn [snd] in *. rewrite IH. cbn [f_pages]. fold (pages_of e). rewrite N.add_mod_idemp_l by discriminate. f_equal. lia.
Qed.
Lemma walk_free_small ps l r : f_pages r < 2 ^ 64 -> f_pages (snd (walk (collect_free ps) l r)) < 2 ^ 64.
Proof.
  revert r. induction l as [|e l IH]; intros r Hr; [exact Hr|]. cbn [walk collect_free]. specialize (IH (snd (collect_free ps r e))). cbn [collect_free snd f_pages] in IH.
  destruct (walk (collect_free ps) l _) as [n r']. cbn [snd] in *. apply IH. now apply N.mod_lt.
Qed.
Lemma sum_repeat x n : sum (repeat x n) = N.of_nat n * x.
Proof. induction n as [|n IH]; [reflexivity|]. cbn [repeat sum]. rewrite IH. lia. Qed.
Lemma map_repeat {A B} (f : A -> B) x n : map f (repeat x n) = repeat (f x) n.
Proof. induction n as [|n IH]; [reflexivity|]. cbn. now rewrite IH. Qed.
Lemma free_first ps d l : f_pages (get_free_info ps (d :: l)) = (N.of_nat (length (d :: l)) * pages_of d) mod 2 ^ 64.
Proof.
  unfold get_free_info. rewrite for_each_first. pose proof (walk_free ps (repeat d (length (d :: l))) (mkFree 0 0 [])) as E. rewrite map_repeat, sum_repeat in E. cbn [f_pages] in E. rewrite N.add_0_l in E. rewrite <- E. symmetry. apply N.mod_small.
  apply walk_free_small. reflexivity.
Qed.
Lemma free_same ps l : (forall e, In e l -> pages_of e = pages_of (hd ([], []) l)) -> f_pages (get_free_info ps l) = sum (map pages_of l) mod 2 ^ 64.
Proof.
  destruct l as [|d l]; [reflexivity|]. intros H. rewrite free_first. f_equal. replace (map pages_of (d :: l)) with (repeat (pages_of d) (length (d :: l))); [now rewrite sum_repeat|].
  symmetry. rewrite <- (map_length pages_of (d :: l)). apply Forall_eq_repeat, Forall_forall. intros x Hx. apply in_map_iff in Hx as (e & <- & He). symmetry. apply H. exact He.
Qed.
Lemma scan_sums l : forall k d, k < 2 ^ 64 -> d < 2 ^ 64 -> scan l k d = ((k + sum (map (fun e => blen (fst e)) l)) mod 2 ^ 64, (d + sum (map (fun e => blen (snd e)) l)) mod 2 ^ 64).
Proof.
  induction l as [|e l IH]; intros k d Hk Hd; cbn [scan map sum]; [rewrite !N.add_0_r, !N.mod_small by assumption; reflexivity|]. rewrite IH by (apply N.mod_lt; discriminate).
  rewrite !N.add_mod_idemp_l by discriminate. f_equal; f_equal; lia.
Qed.

(** ** clear *)
Lemma set_same e n t : set_table e n t n = t.
Proof. unfold set_table. now rewrite eqb_refl. Qed.
Lemma set_other e n t m : m <> n -> set_table e n t m = e m.
Proof. intros H. unfold set_table. now rewrite (proj2 (eqb_false m n) H). Qed.
Lemma clear_yes e names drop input : exists e', do_clear e names drop true input = Some e'
  /\ forall m, (In m names -> e' m = match e m with Some t => cleared drop t | None => None end) /\ (~ In m names -> e' m = e m).
Proof.
  revert e. induction names as [|n names IH]; intros e; [exists e; split; [reflexivity|]; intros m; split; [intros []|reflexivity]|]. cbn [do_clear].
  assert (G : forall e2, (forall m, m <> n -> e2 m = e m) -> match e2 n with Some t => cleared drop t | None => None end = match e n with Some t => cleared drop t | None => None end ->
    e2 n = match e n with Some t => cleared drop t | None => None end ->
    exists e', do_clear e2 names drop true input = Some e' /\ forall m, (In m (n :: names) -> e' m = match e m with Some t => cleared drop t | None => None end) /\ (~ In m (n :: names) -> e' m = e m)).
  { intros e2 H1 H2 H3. destruct (IH e2) as (e' & E & H). exists e'. split; [exact E|]. intros m. destruct (H m) as (Ha & Hb). destruct (decide (m = n)) as [->|Hm].
    - split; [|intros X; exfalso; apply X; now left]. intros _. destruct (in_dec bytes_dec n names) as [Hi|Hi]; [rewrite (Ha Hi); exact H2|rewrite (Hb Hi); exact H3].
    - rewrite (H1 m Hm) in Ha, Hb. split; [intros [X|X]; [congruence|auto]|intros X; apply Hb; intros Y; apply X; now right]. }
  destruct (e n) as [t|] eqn:En.
  - destruct (empty_rows t && negb drop) eqn:Ee.
    + apply G; [auto|now rewrite En|]. rewrite En. unfold cleared. apply andb_prop in Ee as (E1 & E2). destruct drop; [discriminate|]. destruct t as [fl rows]. cbn in *. unfold empty_rows in E1. cbn in E1. destruct rows; [reflexivity|discriminate].
    + apply G; [intros m Hm; now apply set_other|rewrite set_same; destruct drop; reflexivity|]. now rewrite set_same.
  - apply G; [auto|now rewrite En|]. now rewrite En.
Qed.
Lemma clear_named names : forall e drop yes input e', do_clear e names drop yes input = Some e' ->
  forall m, e' m = e m \/ (In m names /\ exists t, e m = Some t /\ e' m = cleared drop t).
Proof.
  induction names as [|n names IH]; intros e drop yes input e'; [intros [= <-]; auto|]. cbn [do_clear].
  assert (G : forall i, do_clear e names drop yes i = Some e' -> forall m, e' m = e m \/ (In m (n :: names) /\ exists t, e m = Some t /\ e' m = cleared drop t)).
  { intros i E m. destruct (IH _ _ _ _ _ E m) as [H|(H & H')]; [auto|right; split; [now right|exact H']]. }
  destruct (e n) as [t|] eqn:En; [|apply G]. destruct (empty_rows t && negb drop); [apply G|]. destruct (if yes then _ else _) as [[[|] i]|]; [apply G| |discriminate].
  intros E m. destruct (IH _ _ _ _ _ E m) as [H|(H & t' & Ht & H')].
  - destruct (decide (m = n)) as [->|Hm]; [|left; rewrite H; now apply set_other]. right. split; [now left|]. exists t. rewrite H, set_same. auto.
  - right. split; [now right|]. destruct (decide (m = n)) as [->|Hm]; [|rewrite set_other in Ht by exact Hm; eauto]. rewrite set_same in Ht. destruct drop; [discriminate|]. injection Ht as <-. exists t. split; [exact En|exact H'].
Qed.
Lemma answer_yes w : says_yes w -> match_answer w = Some false.
Proof. intros [->| ->]; reflexivity. Qed.
Lemma answer_no w : says_no w -> match_answer w = Some true.
Proof. intros [->| ->]; reflexivity. Qed.
Lemma is_y_spec c : is_y c = true <-> says_yes [c].
Proof. unfold is_y, says_yes. rewrite orb_true_iff, !N.eqb_eq. split; intros [H|H]; [left|right|left|right]; congruence. Qed.
Lemma is_n_spec c : is_n c = true <-> says_no [c].
Proof. unfold is_n, says_no. rewrite orb_true_iff, !N.eqb_eq. split; intros [H|H]; [left|right|left|right]; congruence. Qed.
Lemma answer_none w : no_answer w -> match_answer w = None.
Proof.
  intros (H0 & H1 & H2 & H3). destruct w as [|c [|d [|]]]; [congruence| | |reflexivity]; cbn [match_answer].
  - destruct (is_y c) eqn:E; [exfalso; apply H1; now apply is_y_spec|]. destruct (is_n c) eqn:E'; [exfalso; apply H2; now apply is_n_spec|reflexivity].
  - destruct (is_y c) eqn:E; [|reflexivity]. destruct (is_n d) eqn:E'; [|reflexivity]. exfalso. apply (H3 [c] [d]); [now apply is_y_spec|now apply is_n_spec|reflexivity].
Qed.
Lemma ask_skips pre : forall u w rest, Forall no_answer pre -> match_answer w <> None -> ask u (pre ++ w :: rest) = match match_answer w with Some s => Some (s, rest) | None => None end.
Proof.
  induction pre as [|x pre IH]; intros u w rest F H; cbn [app ask].
  - destruct (match_answer w); [reflexivity|congruence].
  - apply Forall_cons_iff in F as (F & F'). rewrite (answer_none x F). now apply IH.
Qed.
Lemma clear_asked e n t drop pre w rest : e n = Some t -> (t_rows t <> [] \/ drop = true) -> Forall no_answer pre ->
  (says_yes w -> do_clear e [n] drop false (pre ++ w :: rest) = Some (set_table e n (cleared drop t)))
  /\ (says_no w -> do_clear e [n] drop false (pre ++ w :: rest) = Some e).
Proof.
  intros En Hr F. assert (Ee : empty_rows t && negb drop = false) by (unfold empty_rows; destruct Hr as [Hr| ->]; [destruct (t_rows t); [congruence|reflexivity]|now rewrite andb_false_r]).
  split; intros W; cbn [do_clear]; rewrite En, Ee, ask_skips by (first [exact F|rewrite ?(answer_yes w W), ?(answer_no w W); discriminate]); [rewrite (answer_yes w W)|rewrite (answer_no w W)]; reflexivity.
Qed.
(** At the end of the input every question counts as confirmed. *)
Lemma clear_silence e names drop : do_clear e names drop false [] = do_clear e names drop true [].
Proof. revert e. induction names as [|n names IH]; intros e; [reflexivity|]. cbn [do_clear]. destruct (e n); [|apply IH]. destruct (_ && _); [apply IH|]. cbn. apply IH. Qed.

(** ** compact *)
Lemma compact_plain {A} (f : @files A) c nobak : f Source = Some c -> f Target = None -> exists f', do_compact f false nobak = ([f'; f], true) /\ f' Source = Some c /\ f' Target = Some c /\ f' Backup = f Backup.
Proof. intros Hs Ht. eexists. split; [reflexivity|]. unfold set_file. cbn. auto. Qed.
Lemma compact_keeps {A} (f : @files A) c replace nobak : f Source = Some c -> forall x, In x (fst (do_compact f replace nobak)) -> exists p, x p = Some c.
Proof.
  intros Hs x. unfold do_compact. destruct replace; cbn [negb].
  2: { cbn. intros [<-|[<-|[]]]; exists Source; unfold set_file; cbn; exact Hs. }
  destruct nobak.
  - cbn. unfold rename, set_file. cbn. intros [<-|[<-|[<-|[]]]]; cbn; [exists Target|exists Target|exists Source]; exact Hs.
  - unfold rename, set_file at 1 2. cbn. rewrite Hs. cbn. unfold rename, set_file. cbn. intros [<-|[<-|[<-|[<-|[<-|[]]]]]]; cbn; first [exists Target; first [exact Hs|reflexivity]|exists Source; exact Hs].
Qed.
Lemma compact_replace {A} (f : @files A) c nobak : f Source = Some c -> exists f' l, do_compact f true nobak = (f' :: l, false) /\ f' Source = None /\ f' Target = Some c.
Proof.
  intros Hs. unfold do_compact. destruct nobak; cbn [negb].
  - eexists _, _. split; [reflexivity|]. unfold set_file. cbn. split; [reflexivity|exact Hs].
  - unfold rename, set_file at 1 2. cbn. rewrite Hs. cbn. eexists _, _. split; [reflexivity|]. unfold set_file. cbn. split; reflexivity.
Qed.

(** ** copy *)
Section Copying.
  Variable o : copy_options.
  (** The records put one after the other. *)
  Fixpoint put_all (dup : bool) (t rows : table) : out table :=
    match rows with [] => Done t | e :: rest => match put_with (c_upsert o) dup t (fst e) (snd e) with Done t => put_all dup t rest | r => r end end.
  Definition rows_at (x : env) (n : bytes) : table := match x n with Some t => t_rows t | None => [] end.
  Definition extends (l l' : list env) : Prop := exists m, l' = m ++ l.

  Lemma rows_loop n fl dup rows : forall g x r1, g_txn g = Some x -> put_all dup (rows_at x n) rows = Done r1 ->
    Forall (fun e => fst e <> [] /\ size_of e < 2 ^ 63) rows -> c_commitsize o < 2 ^ 63 -> g_written g <= c_commitsize o ->
    exists x' cs w, copy_rows o n fl dup rows g = (mkCopying (cs ++ g_commits g) (Some x') w, true)
      /\ (forall m, m <> n -> x' m = x m) /\ (rows <> [] -> x' n = Some (mkTbl fl r1)) /\ (rows = [] -> x' = x)
      /\ (w = 0 -> (exists l, cs = x' :: l) \/ (cs = [] /\ rows = [] /\ g_written g = 0))
      /\ Forall (fun y => (forall m, m <> n -> y m = x m) /\ exists p r, prefix_of p rows /\ put_all dup (rows_at x n) p = Done r /\ y n = Some (mkTbl fl r)) cs.
  Proof.
    induction rows as [|e rest IH]; intros g x r1 Hx Hp F Hc Hw.
    - exists x, [], (g_written g). destruct g as [c t w]. cbn [g_commits g_txn g_written] in *. subst t. cbn [copy_rows app]. split; [reflexivity|]. split; [auto|]. split; [congruence|]. split; [auto|]. split; [auto|constructor].
    - cbn [copy_rows]. rewrite Hx. cbn [put_all] in Hp. fold (rows_at x n). apply Forall_cons_iff in F as ((Fk & Fs) & F). unfold size_of in Fs.
      destruct (put_with (c_upsert o) dup (rows_at x n) (fst e) (snd e)) as [t| |] eqn:Ep; try discriminate.
      set (x1 := set_table x n (Some (mkTbl fl t))). assert (R1 : rows_at x1 n = t) by (unfold rows_at, x1; now rewrite set_same).
      assert (O1 : forall m, m <> n -> x1 m = x m) by (intros m Hm; now apply set_other).
      assert (W : (g_written g + blen (fst e) + blen (snd e)) mod 2 ^ 64 = g_written g + blen (fst e) + blen (snd e)) by (apply N.mod_small; lia). rewrite W.
      assert (P : 0 < blen (fst e)) by (unfold blen; destruct (fst e) eqn:Ek; [destruct (Fk Ek)|cbn [length]; lia]).
      set (g1 := if c_commitsize o <? g_written g + blen (fst e) + blen (snd e) then _ else _).
      destruct (IH g1 x1 r1) as (x' & cs & w & E & A & B & C & D & G).
      + unfold g1. destruct (_ <? _); reflexivity.
      + now rewrite R1.
      + exact F.
      + exact Hc.
      + unfold g1. destruct (N.ltb_spec (c_commitsize o) (g_written g + blen (fst e) + blen (snd e))); cbn [g_written]; lia.
      + assert (Last : x' n = Some (mkTbl fl r1)).
        { destruct rest as [|e' rest]; [|apply B; discriminate]. rewrite (C eq_refl). unfold x1. rewrite set_same. cbn [put_all] in Hp. injection Hp as <-. reflexivity. }
        assert (G' : Forall (fun y => (forall m, m <> n -> y m = x m) /\ exists p r, prefix_of p (e :: rest) /\ put_all dup (rows_at x n) p = Done r /\ y n = Some (mkTbl fl r)) cs).
        { eapply Forall_impl; [|exact G]. intros y (G1 & p & r & (q & Gp) & G2 & G3). split; [intros m Hm; rewrite G1, O1 by exact Hm; reflexivity|]. exists (e :: p), r. split; [exists q; cbn; now rewrite Gp|]. split; [|exact G3]. cbn [put_all]. rewrite Ep, <- R1. exact G2. }
        assert (A' : forall m, m <> n -> x' m = x m) by (intros m Hm; now rewrite A, O1 by exact Hm).
        unfold g1 in *. destruct (c_commitsize o <? _); cbn [g_commits] in *.
        * exists x', (cs ++ [x1]), w. rewrite <- app_assoc. cbn [app]. split; [exact E|]. split; [exact A'|]. split; [auto|]. split; [discriminate|]. split; [intros Ew; left; destruct (D Ew) as [(l & ->)|(-> & Er & _)]; [now exists (l ++ [x1])|exists []; cbn; now rewrite (C Er)]|].
          apply Forall_app; split; [exact G'|]. constructor; [|constructor]. split; [exact O1|]. exists [e], t. split; [now exists rest|]. split; [cbn [put_all]; now rewrite Ep|]. unfold x1. now rewrite set_same.
        * exists x', cs, w. split; [exact E|]. split; [exact A'|]. split; [auto|]. split; [discriminate|]. split; [|exact G']. intros Ew. destruct (D Ew) as [D'|(_ & _ & D')]; [now left|]. cbn [g_written] in D'. lia.
  Qed.

  Lemma put_all_append t rows : c_upsert o = false -> put_all false t rows = append_all t rows.
  Proof. intros H. revert t. induction rows as [|[k v] rows IH]; intros t; [reflexivity|]. cbn [put_all append_all fst snd]. unfold put_with. rewrite H. destruct (append t k v); [apply IH|reflexivity|reflexivity]. Qed.
  Lemma put_dup_last t k v : (forall e, In e t -> pair_lt e (k, v) = true) -> put_dup t k v = t ++ [(k, v)].
  Proof. induction t as [|e t IH]; intros H; [reflexivity|]. cbn [put_dup app]. rewrite (H e) by now left. rewrite IH; [reflexivity|]. intros e' I. apply H. now right. Qed.
  Lemma put_all_append_dup rows : c_upsert o = false -> forall t, dup_ordered (t ++ rows) -> put_all true t rows = Done (t ++ rows).
  Proof.
    intros H. induction rows as [|[k v] rows IH]; intros t O; [now rewrite app_nil_r|]. cbn [put_all fst snd]. unfold put_with. rewrite H. unfold append_dup.
    assert (L : forall e, In e t -> pair_lt e (k, v) = true) by (intros e I; apply sorted_app in O as (_ & _ & F); apply (F e (k, v)); [exact I|now left]).
    destruct (existsb (fun e : bytes * bytes => bytes_eqb (fst e) k && negb (lex_lt (snd e) v)) t) eqn:E.
    - exfalso. apply existsb_exists in E as (e & I & E). specialize (L e I). apply andb_prop in E as (E1 & E2). apply eqb_true in E1. unfold pair_lt in L. cbn [fst snd] in L. rewrite E1, lex_lt_irrefl, eqb_refl in L. cbn [orb andb] in L. rewrite L in E2. discriminate.
    - rewrite put_dup_last by exact L. rewrite (IH (t ++ [(k, v)])); rewrite <- app_assoc; [reflexivity|exact O].
  Qed.
  Lemma put_all_prefix dup t : forall p q r, put_all dup t (p ++ q) = Done r -> exists r', put_all dup t p = Done r'.
  Proof. intros p. revert t. induction p as [|e p IH]; intros t q r E; [eexists; reflexivity|]. cbn [app put_all] in *. destruct (put_with _ _ _ _ _); try discriminate. eapply IH, E. Qed.
  Lemma put_all_empty t : c_upsert o = false -> in_order t -> forall p, prefix_of p (t_rows t) -> put_all (dupsort t) [] p = Done p.
  Proof.
    intros H O p (q & E). unfold in_order in O. rewrite E in O. destruct (dupsort t).
    - rewrite (put_all_append_dup p H []); [reflexivity|]. now apply sorted_app in O as (O & _).
    - rewrite put_all_append by exact H. rewrite (append_all_ordered p []); [reflexivity|]. now apply sorted_app in O as (O & _).
  Qed.
  (** What upsert makes of a table. *)
  Lemma put_all_upsert rows : c_upsert o = true -> forall t, ordered t -> exists r, put_all false t rows = Done r /\ ordered r
    /\ (ordered rows -> forall k, lookup r k = match lookup rows k with Some v => Some v | None => lookup t k end).
  Proof.
    intros H. induction rows as [|[k v] rows IH]; intros t O; cbn [put_all]; [exists t; auto|]. unfold put_with. rewrite H. cbn [fst snd].
    destruct (IH (upsert t k v) (upsert_ordered t k v O)) as (r & E & Or & L). exists r. split; [exact E|]. split; [exact Or|]. intros Os k'. apply sorted_cons_inv in Os as (Os' & F).
    rewrite (L Os' k'), lookup_upsert by exact O. assert (Os : ordered ((k, v) :: rows)) by (constructor; [exact Os'|apply Forall_forall; exact F]).
    destruct (lookup rows k') as [w|] eqn:E1.
    - apply lookup_spec in E1; [|exact Os']. assert (X : lookup ((k, v) :: rows) k' = Some w) by (apply lookup_spec; [exact Os|now right]). unfold table, entry in *. now rewrite X.
    - destruct (eqb_spec k' k) as [->|Hk].
      + assert (X : lookup ((k, v) :: rows) k = Some v) by (apply lookup_spec; [exact Os|now left]). unfold table, entry in *. now rewrite X.
      + assert (X : lookup ((k, v) :: rows) k' = None) by (apply lookup_none; [exact Os|]; intros w [X|X]; [congruence|]; apply lookup_none with (v := w) in E1; auto). unfold table, entry in *. now rewrite X.
  Qed.
  Lemma put_all_upsert_dup rows : c_upsert o = true -> forall t, dup_ordered t -> exists r, put_all true t rows = Done r /\ dup_ordered r /\ forall e, In e r <-> In e rows \/ In e t.
  Proof.
    intros H. induction rows as [|[k v] rows IH]; intros t O; cbn [put_all]; [exists t; split; [reflexivity|]; split; [exact O|]; intros e; cbn; tauto|]. unfold put_with. rewrite H. cbn [fst snd].
    destruct (IH (put_dup t k v) (put_dup_ordered t k v O)) as (r & E & Or & L). exists r. split; [exact E|]. split; [exact Or|]. intros e. rewrite L, put_dup_in by exact O. cbn. intuition congruence.
  Qed.

  (** *** Which tables *)
  Lemma member_spec n l : member n l = true <-> In n l.
  Proof. unfold member. rewrite existsb_exists. split; [intros (x & I & E); apply eqb_true in E; congruence|intros I; exists n; split; [exact I|apply eqb_refl]]. Qed.
  Lemma skipped_spec n t : skipped o n t = false <-> wanted o n t.
  Proof.
    unfold skipped, wanted. rewrite !orb_false_iff, andb_false_iff. assert (E : empty_rows t = true <-> t_rows t = []) by (unfold empty_rows; destruct (t_rows t); split; congruence).
    assert (X : member n (c_xtables o) = false <-> ~ In n (c_xtables o)) by (rewrite <- member_spec; destruct (member n (c_xtables o)); split; congruence).
    assert (T : match c_tables o with [] => false | _ => negb (member n (c_tables o)) end = false <-> (c_tables o = [] \/ In n (c_tables o))).
    { rewrite <- member_spec. destruct (c_tables o) as [|a l]; [split; auto|]. rewrite negb_false_iff. split; [auto|intros [|]; [discriminate|auto]]. }
    rewrite X. replace (match c_tables o with [] => false | (_ :: _) as l => negb (member n l) end) with (match c_tables o with [] => false | _ => negb (member n (c_tables o)) end) by (destruct (c_tables o); reflexivity). rewrite T.
    split; [intros ((A & B) & C); split; [exact A|]; split; [exact B|]; intros Er; destruct C as [C|C]; [apply E in Er; congruence|exact C]|].
    intros (A & B & C). split; [split; assumption|]. destruct (empty_rows t) eqn:Ee; [right; apply C, E; reflexivity|now left].
  Qed.
  (** Tables that are not wanted, or populated and not to be upserted, stay as they are in every commit. *)
  Definition keeps (tgt : env) (src : list (bytes * tbl)) (y : env) : Prop :=
    forall m, (forall t, In (m, t) src -> ~ wanted o m t \/ (exists t', tgt m = Some t' /\ t_rows t' <> [] /\ c_upsert o = false)) -> y m = tgt m.
  Definition all_keep (P : env -> Prop) (g : copying) : Prop := Forall P (g_commits g) /\ match g_txn g with Some x => P x | None => True end.
  Lemma copy_rows_keeps (P : env -> Prop) n fl dup rows : (forall x t, P x -> P (set_table x n t)) -> forall g, all_keep P g -> all_keep P (fst (copy_rows o n fl dup rows g)).
  Proof.
    intros HP. induction rows as [|e rest IH]; intros g H; cbn [copy_rows]; [exact H|]. destruct H as (H1 & H2). destruct (g_txn g) as [x|] eqn:Ex; [|split; [exact H1|cbn [fst]; rewrite Ex; exact I]].
    destruct (put_with _ _ _ _ _) as [t| |]; [|split; [exact H1|cbn [fst]; rewrite Ex; exact H2]|split; [exact H1|cbn [fst]; rewrite Ex; exact H2]]. apply IH. assert (P (set_table x n (Some (mkTbl fl t)))) by auto. destruct (_ <? _); split; cbn [g_commits g_txn]; auto.
  Qed.
  Lemma copy_table_keeps (P : env -> Prop) n t g : (forall x t, P x -> P (set_table x n t)) -> all_keep P g -> all_keep P (fst (copy_table o n t g)).
  Proof.
    intros HP H. unfold copy_table. pose proof (copy_rows_keeps P n (t_flags t) (dupsort t) (t_rows t) HP g H) as K. destruct (copy_rows _ _ _ _ _ _) as [g' [|]]; [|exact K]. cbn [fst] in *. destruct (_ =? 0); [exact K|]. destruct K as (K1 & K2). split; cbn [g_commits g_txn]; [|exact I].
    destruct (g_txn g'); auto.
  Qed.
  Lemma visit_keeps (P : env -> Prop) tgt n t g : (wanted o n t -> (exists t', tgt n = Some t' /\ t_rows t' <> [] /\ c_upsert o = false) \/ forall x t, P x -> P (set_table x n t)) -> all_keep P g -> all_keep P (fst (visit_table o tgt n t g)).
  Proof.
    intros HP H. unfold visit_table. destruct (skipped o n t) eqn:Es; [exact H|]. apply skipped_spec in Es. specialize (HP Es). destruct (tgt n) as [t'|] eqn:Et.
    - destruct (negb (empty_rows t') && negb (c_upsert o)) eqn:Ep; [exact H|]. destruct HP as [(t'' & E & Hr & Hu)|HP].
      + exfalso. injection E as <-. rewrite Hu in Ep. unfold empty_rows in Ep. destruct (t_rows t'); [congruence|discriminate].
      + destruct (g_txn g) eqn:Ex; [|exact H]. destruct (t_flags t =? t_flags t'); cbn [negb]; [now apply copy_table_keeps|exact H].
    - destruct HP as [(t'' & E & _)|HP]; [discriminate|]. destruct (g_txn g) as [x|] eqn:Ex; [|exact H]. apply copy_table_keeps; [exact HP|]. destruct H as (H1 & H2). rewrite Ex in H2. split; cbn [g_commits g_txn]; auto.
  Qed.
  Lemma tables_keep (P : env -> Prop) tgt src : (forall n t, In (n, t) src -> wanted o n t -> (exists t', tgt n = Some t' /\ t_rows t' <> [] /\ c_upsert o = false) \/ forall x t, P x -> P (set_table x n t)) -> forall g, all_keep P g -> all_keep P (fst (copy_tables o tgt src g)).
  Proof.
    induction src as [|[n t] src IH]; intros HP g H; [exact H|]. cbn [copy_tables]. assert (K : all_keep P (fst (visit_table o tgt n t g))) by (apply visit_keeps; [apply HP; now left|exact H]). destruct (visit_table o tgt n t g) as [g' [|]]; [|exact K]. apply IH; [|exact K]. intros n' t' I. apply HP. now right.
  Qed.
  Lemma copy_keeps tgt src y : In y (fst (do_copy o src (Some tgt))) -> keeps tgt src y.
  Proof.
    unfold do_copy. destruct (c_create o); [intros []|]. destruct src as [|nt src0]; [intros []|]. set (src := nt :: src0). intros Hy m Hm.
    pose proof (tables_keep (fun y => y m = tgt m) tgt src) as K. destruct (copy_tables o tgt src (mkCopying [] (Some tgt) 0)) as [g ok] eqn:E. cbn [fst] in Hy.
    specialize (fun H => K H (mkCopying [] (Some tgt) 0)). rewrite E in K. cbn [fst] in K. assert (A : all_keep (fun y => y m = tgt m) g).
    { apply K; [|split; [constructor|reflexivity]]. intros n t I W. destruct (decide (n = m)) as [->|Hn]; [|right; intros x t0 Hx; rewrite set_other by congruence; exact Hx]. destruct (Hm t I) as [X|X]; [contradiction|now left]. }
    destruct A as (A & _). rewrite Forall_forall in A. apply A. exact Hy.
  Qed.
End Copying.

(** ** One table *)
Section One.
  Variable o : copy_options.
  Definition skips_all (src : list (bytes * tbl)) : Prop := forall n t, In (n, t) src -> ~ wanted o n t.
  Lemma skip_one tgt n t g : ~ wanted o n t -> visit_table o tgt n t g = (g, true).
  Proof. intros H. unfold visit_table. destruct (skipped o n t) eqn:E; [reflexivity|]. apply skipped_spec in E. contradiction. Qed.
  Lemma skip_tables tgt src rest g : skips_all src -> copy_tables o tgt (src ++ rest) g = copy_tables o tgt rest g.
  Proof. induction src as [|[n t] src IH]; intros H; [reflexivity|]. cbn [app copy_tables]. rewrite skip_one by (apply H; now left). apply IH. intros n' t' I. apply H. now right. Qed.

  Lemma copy_table_run n t g x r1 : g_txn g = Some x -> g_written g = 0 -> put_all o (dupsort t) (rows_at x n) (t_rows t) = Done r1 -> countable_rows o t -> t_rows t <> [] ->
    exists cs x' w tx, copy_table o n t g = (mkCopying (x' :: cs ++ g_commits g) tx w, true) /\ (tx = None \/ (tx = Some x' /\ w = 0))
      /\ (forall m, m <> n -> x' m = x m) /\ x' n = Some (mkTbl (t_flags t) r1)
      /\ Forall (fun y => (forall m, m <> n -> y m = x m) /\ exists p r, prefix_of p (t_rows t) /\ put_all o (dupsort t) (rows_at x n) p = Done r /\ y n = Some (mkTbl (t_flags t) r)) cs.
  Proof.
    intros Hx Hw Hp (Hc & F) Hr. unfold copy_table. destruct (rows_loop o n (t_flags t) (dupsort t) (t_rows t) g x r1 Hx Hp F Hc) as (x' & cs & w & E & A & B & _ & D & G); [lia|]. rewrite E. cbn [g_written g_txn g_commits]. destruct (N.eqb_spec w 0) as [->|Hn].
    - destruct (D eq_refl) as [(l & ->)|(_ & X & _)]; [|contradiction]. exists l, x', 0, (Some x'). split; [reflexivity|]. split; [auto|]. split; [exact A|]. split; [apply B, Hr|]. now apply Forall_cons_iff in G as (_ & G).
    - exists cs, x', w, None. split; [reflexivity|]. split; [auto|]. split; [exact A|]. split; [apply B, Hr|exact G].
  Qed.

  (** The table is there afterwards, and the rest of the target is as it was. *)
  Lemma copy_one (tgt : env) before n t after r0 r1 : c_create o = false -> skips_all before -> skips_all after -> wanted o n t -> t_rows t <> [] -> countable_rows o t ->
    match tgt n with Some t' => t_flags t' = t_flags t /\ t_rows t' = r0 /\ (c_upsert o = true \/ r0 = []) | None => r0 = [] end -> put_all o (dupsort t) r0 (t_rows t) = Done r1 ->
    exists last commits, do_copy o (before ++ (n, t) :: after) (Some tgt) = (last :: commits, true)
      /\ (forall m, m <> n -> last m = tgt m) /\ last n = Some (mkTbl (t_flags t) r1)
      /\ Forall (fun y => (forall m, m <> n -> y m = tgt m) /\ exists p r, prefix_of p (t_rows t) /\ put_all o (dupsort t) r0 p = Done r /\ y n = Some (mkTbl (t_flags t) r)) commits.
  Proof.
    intros Hc Sb Sa W Hr Cr Ht Hp. unfold do_copy. rewrite Hc. destruct (before ++ (n, t) :: after) as [|nt l0] eqn:E0; [destruct before; discriminate|]. rewrite <- E0. clear nt l0 E0. rewrite skip_tables by exact Sb. cbn [copy_tables].
    assert (V : exists x, visit_table o tgt n t (mkCopying [] (Some tgt) 0) = copy_table o n t (mkCopying [] (Some x) 0) /\ (forall m, m <> n -> x m = tgt m) /\ rows_at x n = r0).
    { unfold visit_table. rewrite (proj2 (skipped_spec o n t) W). destruct (tgt n) as [t'|] eqn:Et.
      - destruct Ht as (Hf & H0 & Hu). replace (negb (empty_rows t') && negb (c_upsert o)) with false.
        2: { symmetry. unfold empty_rows. destruct Hu as [-> |Hu]; [apply andb_false_r|]. rewrite H0, Hu. reflexivity. }
        cbn [g_txn]. rewrite Hf, N.eqb_refl. cbn [negb]. exists tgt. split; [reflexivity|]. split; [auto|]. unfold rows_at. now rewrite Et.
      - exists (set_table tgt n (Some (mkTbl (t_flags t) []))). split; [reflexivity|]. split; [intros m Hm; now apply set_other|]. unfold rows_at. rewrite set_same. now rewrite Ht. }
    destruct V as (x & -> & Ox & Rx). rewrite <- Rx in Hp. destruct (copy_table_run n t (mkCopying [] (Some x) 0) x r1 eq_refl eq_refl Hp Cr Hr) as (cs & x' & w & tx & -> & _ & A & B & G).
    replace after with (after ++ []) by apply app_nil_r. rewrite skip_tables by exact Sa. cbn [copy_tables g_commits]. rewrite app_nil_r. exists x', cs. split; [reflexivity|]. split; [intros m Hm; now rewrite A, Ox|]. split; [exact B|].
    eapply Forall_impl; [|exact G]. intros y (G1 & p & r & G2 & G3 & G4). split; [intros m Hm; now rewrite G1, Ox|]. exists p, r. rewrite <- Rx. auto.
  Qed.
  Lemma copy_exact (tgt : env) before n t after : c_create o = false -> c_upsert o = false -> skips_all before -> skips_all after -> wanted o n t -> in_order t -> t_rows t <> [] -> countable_rows o t ->
    (tgt n = None \/ tgt n = Some (mkTbl (t_flags t) [])) ->
    exists last commits, do_copy o (before ++ (n, t) :: after) (Some tgt) = (last :: commits, true)
      /\ last n = Some t /\ (forall m, m <> n -> last m = tgt m)
      /\ Forall (fun y => (exists p, prefix_of p (t_rows t) /\ y n = Some (mkTbl (t_flags t) p)) /\ forall m, m <> n -> y m = tgt m) commits.
  Proof.
    intros Hc Hu Sb Sa W O Hr Cr Ht. destruct (copy_one tgt before n t after [] (t_rows t) Hc Sb Sa W Hr Cr) as (last & cs & E & A & B & G).
    - destruct Ht as [-> | ->]; [reflexivity|]. cbn. auto.
    - apply put_all_empty; [exact Hu|exact O|]. exists []. now rewrite app_nil_r.
    - exists last, cs. split; [exact E|]. split; [rewrite B; now destruct t|]. split; [exact A|]. eapply Forall_impl; [|exact G]. intros y (G1 & p & r & G2 & G3 & G4). split; [|exact G1]. exists p. split; [exact G2|].
      rewrite put_all_empty in G3 by assumption. injection G3 as <-. exact G4.
  Qed.
  Lemma copy_upsert (tgt : env) before n t t' after : c_create o = false -> c_upsert o = true -> skips_all before -> skips_all after -> wanted o n t -> in_order t -> t_rows t <> [] -> countable_rows o t ->
    tgt n = Some t' -> t_flags t' = t_flags t -> in_order t' ->
    exists last commits u, do_copy o (before ++ (n, t) :: after) (Some tgt) = (last :: commits, true)
      /\ last n = Some u /\ t_flags u = t_flags t /\ in_order u
      /\ (dupsort t = true -> forall e, In e (t_rows u) <-> In e (t_rows t) \/ In e (t_rows t'))
      /\ (dupsort t = false -> forall k, lookup (t_rows u) k = match lookup (t_rows t) k with Some v => Some v | None => lookup (t_rows t') k end)
      /\ forall m, m <> n -> last m = tgt m.
  Proof.
    intros Hc Hu Sb Sa W O Hr Cr Ht Hf O'. assert (Hd : dupsort t' = dupsort t) by (unfold dupsort; now rewrite Hf). unfold in_order in O, O'. rewrite Hd in O'.
    assert (R : exists r1, put_all o (dupsort t) (t_rows t') (t_rows t) = Done r1 /\ (if dupsort t then dup_ordered r1 else ordered r1)
      /\ (dupsort t = true -> forall e, In e r1 <-> In e (t_rows t) \/ In e (t_rows t')) /\ (dupsort t = false -> forall k, lookup r1 k = match lookup (t_rows t) k with Some v => Some v | None => lookup (t_rows t') k end)).
    { destruct (dupsort t).
      - destruct (put_all_upsert_dup o (t_rows t) Hu (t_rows t') O') as (r & E & Or & L). exists r. split; [exact E|]. split; [exact Or|]. split; [auto|discriminate].
      - destruct (put_all_upsert o (t_rows t) Hu (t_rows t') O') as (r & E & Or & L). exists r. split; [exact E|]. split; [exact Or|]. split; [discriminate|]. intros _. exact (L O). }
    destruct R as (r1 & E1 & Or & L1 & L2). destruct (copy_one tgt before n t after (t_rows t') r1 Hc Sb Sa W Hr Cr) as (last & cs & E & A & B & _); [rewrite Ht; auto|exact E1|].
    exists last, cs, (mkTbl (t_flags t) r1). split; [exact E|]. split; [exact B|]. split; [reflexivity|]. split; [exact Or|]. split; [exact L1|]. split; [exact L2|exact A].
  Qed.
  (** The second populated table is never copied, unless the first one happened to end with a full batch. *)
  Lemma copy_second (tgt : env) n1 t1 n2 t2 rest : c_create o = false -> c_upsert o = false -> wanted o n1 t1 -> wanted o n2 t2 -> n1 <> n2 -> in_order t1 -> t_rows t1 <> [] -> countable_rows o t1 ->
    tgt n1 = None -> tgt n2 = None -> sum (map size_of (t_rows t1)) <= c_commitsize o ->
    exists last, do_copy o ((n1, t1) :: (n2, t2) :: rest) (Some tgt) = ([last], false) /\ last n1 = Some t1 /\ last n2 = None.
  Proof.
    intros Hc Hu W1 W2 Hn O Hr Cr T1 T2 Hs. unfold do_copy. rewrite Hc. cbn [copy_tables]. unfold visit_table at 1. rewrite (proj2 (skipped_spec o n1 t1) W1), T1. cbn [g_txn g_commits g_written].
    set (x := set_table tgt n1 (Some (mkTbl (t_flags t1) []))). assert (Rx : rows_at x n1 = []) by (unfold rows_at, x; now rewrite set_same).
    assert (Small : forall rows g x r1, g_txn g = Some x -> put_all o (dupsort t1) (rows_at x n1) rows = Done r1 -> c_commitsize o < 2 ^ 63 -> g_written g + sum (map size_of rows) <= c_commitsize o ->
      exists x', copy_rows o n1 (t_flags t1) (dupsort t1) rows g = (mkCopying (g_commits g) (Some x') (g_written g + sum (map size_of rows)), true) /\ (forall m, m <> n1 -> x' m = x m) /\ (rows <> [] -> x' n1 = Some (mkTbl (t_flags t1) r1)) /\ (rows = [] -> x' = x)).
    { induction rows as [|e rows IH]; intros g y r1 Hg Hp Hb Hw.
      - exists y. destruct g as [c tx w]. cbn in *. subst tx. rewrite N.add_0_r. split; [reflexivity|]. split; [auto|]. split; [congruence|auto].
      - cbn [copy_rows map sum] in *. rewrite Hg. cbn [put_all] in Hp. fold (rows_at y n1). destruct (put_with _ _ _ _ _) as [r| |] eqn:Ep; try discriminate. unfold size_of in Hw at 1.
        assert (Wm : (g_written g + blen (fst e) + blen (snd e)) mod 2 ^ 64 = g_written g + blen (fst e) + blen (snd e)) by (apply N.mod_small; lia). rewrite Wm. replace (c_commitsize o <? _) with false by (symmetry; apply N.ltb_ge; lia).
        destruct (IH (mkCopying (g_commits g) (Some (set_table y n1 (Some (mkTbl (t_flags t1) r)))) (g_written g + blen (fst e) + blen (snd e))) _ r1 eq_refl) as (x' & E & A & B & C).
        + unfold rows_at. rewrite set_same. exact Hp.
        + exact Hb.
        + cbn [g_written]. lia.
        + cbn [g_commits g_written] in E. exists x'. split; [rewrite E; change (size_of e) with (blen (fst e) + blen (snd e)); rewrite !N.add_assoc; reflexivity|]. split; [intros m Hm; rewrite A by exact Hm; now apply set_other|]. split; [|discriminate]. intros _. destruct rows as [|e' rows]; [|apply B; discriminate].
          rewrite (C eq_refl), set_same. cbn [put_all] in Hp. injection Hp as <-. reflexivity. }
    unfold copy_table. destruct Cr as (Cc & Cf). destruct (Small (t_rows t1) (mkCopying [] (Some x) 0) x (t_rows t1) eq_refl) as (x' & E & A & B & _).
    - rewrite Rx. apply put_all_empty; [exact Hu|exact O|]. exists []. now rewrite app_nil_r.
    - exact Cc.
    - cbn [g_written]. lia.
    - rewrite E. cbn [g_written g_commits g_txn]. replace (0 + sum (map size_of (t_rows t1)) =? 0) with false.
      2: { symmetry. apply N.eqb_neq. destruct (t_rows t1) as [|e l]; [congruence|]. apply Forall_cons_iff in Cf as ((Ck & _) & _). cbn [map sum]. unfold size_of. unfold blen. destruct (fst e) as [|? ?] eqn:Ek; [destruct (Ck Ek)|cbn [length]; lia]. }
      unfold visit_table. rewrite (proj2 (skipped_spec o n2 t2) W2), T2. cbn [g_txn g_commits]. exists x'. split; [reflexivity|]. split; [rewrite (B Hr); now destruct t1|]. rewrite A by congruence. unfold x. rewrite set_other by congruence. exact T2.
  Qed.
  Lemma copy_create src tgt : c_create o = true -> do_copy o src tgt = ([], false).
  Proof. intros H. unfold do_copy. destruct tgt; [now rewrite H|reflexivity]. Qed.
End One.
