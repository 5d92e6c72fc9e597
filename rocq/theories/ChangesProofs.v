(** Proofs about the commands that execute blocks again. *)
From stdpp Require Import gmap.
From Verif Require Import Base BaseFacts RlpModel TypesModel TxModel BlockModel UtilModel ChainModel DbTable DbModel BufferModel BufferSpec ExecModel ChangesModel ChangesSpec.

Lemma phantom_spec a : existsb (N.eqb a) kPhantomAccounts = true <-> phantom a.
Proof.
  rewrite existsb_exists. split.
  - intros (x & H & E). apply N.eqb_eq in E. subst x. destruct H as [H|[H|[H|[]]]]; [left|right; left|right; right]; now symmetry.
  - intros [H|[H|H]]; exists a; (split; [|apply N.eqb_refl]); [left|right; left|right; right; left]; now symmetry.
Qed.
Lemma in_map_list (m : gmap N bytes) k v : In (k, v) (map_to_list m) <-> m !! k = Some v.
Proof. rewrite <- elem_of_list_In. apply elem_of_map_to_list. Qed.

(** The reports about accounts. *)
Lemma in_found n recorded calculated r :
  In r (concat (map (from_db n calculated) (map_to_list recorded)) ++ concat (map (from_calculated n recorded) (map_to_list calculated)))
  <-> about r = n /\ match r with IsMissing _ _ | ValueMismatch _ _ _ _ | NotInDb _ _ => expected recorded calculated ∅ ∅ r | _ => False end.
Proof.
  rewrite in_app_iff, !in_concat. split.
  - intros [(l & L & R)|(l & L & R)]; apply in_map_iff in L as ((a & v) & <- & I); apply in_map_list in I.
    + unfold from_db in R. cbn [fst snd] in R. destruct (calculated !! a) as [w|] eqn:C.
      * destruct (eqb_spec w v) as [ -> |NE]; [destruct R|]. destruct R as [ <- |[]]. cbn [about expected]. repeat split; assumption.
      * destruct (existsb (N.eqb a) kPhantomAccounts) eqn:P; [destruct R|]. destruct R as [ <- |[]]. cbn [about expected]. split; [reflexivity|]. split; [eauto|]. split; [exact C|]. rewrite <- phantom_spec. congruence.
    + unfold from_calculated in R. cbn [fst snd] in R. destruct (recorded !! a) as [w|] eqn:C; [destruct R|]. destruct R as [ <- |[]]. cbn [about expected]. eauto.
  - intros (A & E). destruct r as [m|m a|m a v w|m a|m|m]; try destruct E; cbn [about] in A; subst m; cbn [expected] in *.
    + left. destruct H as (w & W). exists [IsMissing n a]. split; [|now left]. apply in_map_iff. exists (a, w). split; [|now apply in_map_list]. unfold from_db. cbn [fst snd]. destruct H0 as (C & P). rewrite C.
      destruct (existsb (N.eqb a) kPhantomAccounts) eqn:X; [|reflexivity]. apply phantom_spec in X. now elim P.
    + left. destruct H0 as (R & NE). exists [ValueMismatch n a v w]. split; [|now left]. apply in_map_iff. exists (a, w). split; [|now apply in_map_list]. unfold from_db. cbn [fst snd]. rewrite H.
      destruct (eqb_spec v w); [contradiction|reflexivity].
    + right. destruct H as (v & V). exists [NotInDb n a]. split; [|now left]. apply in_map_iff. exists (a, v). split; [|now apply in_map_list]. unfold from_calculated. cbn [fst snd]. now rewrite H0.
Qed.
Lemma disagree_found n recorded calculated : (exists a, disagree recorded calculated a) <->
  concat (map (from_db n calculated) (map_to_list recorded)) ++ concat (map (from_calculated n recorded) (map_to_list calculated)) <> [].
Proof.
  split.
  - intros (a & D & P) E. assert (X : forall r, ~ In r (concat (map (from_db n calculated) (map_to_list recorded)) ++ concat (map (from_calculated n recorded) (map_to_list calculated)))) by (rewrite E; intros r []).
    destruct (recorded !! a) as [w|] eqn:R, (calculated !! a) as [v|] eqn:C.
    + apply (X (ValueMismatch n a v w)). apply in_found. cbn. repeat split; [exact C|exact R|congruence].
    + apply (X (IsMissing n a)). apply in_found. cbn. split; [reflexivity|]. split; [rewrite R; eauto|]. split; [exact C|]. intros Q. apply P. auto.
    + apply (X (NotInDb n a)). apply in_found. cbn. split; [reflexivity|]. split; [rewrite C; eauto|exact R].
    + now elim D.
  - intros NE. destruct (concat _ ++ concat _) as [|r l] eqn:E; [now elim NE|]. assert (I : In r (concat (map (from_db n calculated) (map_to_list recorded)) ++ concat (map (from_calculated n recorded) (map_to_list calculated)))) by (rewrite E; now left).
    apply in_found in I as (_ & I). destruct r as [m|m a|m a v w|m a|m|m]; try destruct I as []; cbn [expected] in *; exists a; unfold disagree.
    + destruct H as (w & W). destruct H0 as (C & P). rewrite W, C. split; [discriminate|tauto].
    + destruct H0 as (R & N). rewrite H, R. split; [congruence|]. intros (_ & X). discriminate X.
    + destruct H as (v & V). rewrite H0, V. split; [discriminate|]. intros (_ & X). discriminate X.
Qed.
Lemma compare_accounts_spec n recorded calculated r : In r (compare_accounts n recorded calculated) <->
  about r = n /\ match r with FailedBlock _ | StorageMismatch _ => False | _ => expected recorded calculated ∅ ∅ r end.
Proof.
  unfold compare_accounts. destruct (bool_decide_reflect (calculated = recorded)) as [ -> |NE].
  - split; [intros []|]. intros (A & E). destruct r as [m|m a|m a v w|m a|m|m]; try exact E; cbn [expected] in E.
    + destruct E as ((w & W) & C & _). congruence.
    + destruct E as (C & R & N). congruence.
    + destruct E as ((w & W) & C). congruence.
    + destruct E as (a & D & _). now elim D.
  - cbv zeta. pose proof (disagree_found n recorded calculated) as D. pose proof (in_found n recorded calculated) as F.
    destruct (concat (map (from_db n calculated) (map_to_list recorded)) ++ concat (map (from_calculated n recorded) (map_to_list calculated))) as [|x l] eqn:E.
    + split; [intros []|]. intros (A & X). destruct r as [m|m a|m a v w|m a|m|m]; try exact X; try (apply (F _); split; [exact A|exact X]). apply D in X. now elim X.
    + rewrite in_app_iff, F. split.
      * intros [(A & X)|[ <- |[]]]; [split; [exact A|]; destruct r; try exact X; destruct X|]. split; [reflexivity|]. apply D. discriminate.
      * intros (A & X). destruct r as [m|m a|m a v w|m a|m|m]; try (now destruct X); try (left; split; [exact A|exact X]). right. left. cbn in A. now rewrite A.
Qed.
Lemma compare_storage_spec n recorded calculated r : In r (compare_storage n recorded calculated) <-> r = StorageMismatch n /\ recorded <> calculated.
Proof.
  unfold compare_storage. destruct (bool_decide_reflect (calculated = recorded)) as [ -> |NE]; split; [intros []|intros (_ & X); now elim X|intros [ <- |[]]; split; [reflexivity|congruence]|intros ( -> & _); now left].
Qed.

Section Check.
  Variable bm_read : bytes -> bitmap.
  Variable exec : chain_config -> view -> block -> exec_result.
  Notation check_block := (check_block bm_read exec).
  Notation check_loop := (check_loop bm_read exec).
  Notation view_at := (view_at bm_read).

  (** What a block that was checked shows. *)
  Definition checked (d : database) (c : chain_config) (n : N) (reports : list change_report) : Prop :=
    exists blk h, read_block d n true = Done (Some (blk, h))
    /\ ((exec c (view_at d n) blk = Invalid /\ forall r, about r = n -> In r reports <-> r = FailedBlock n)
        \/ exists ops rs recorded calculated slots, exec c (view_at d n) blk = Valid ops rs /\ read_account_changes d n = Done recorded /\ read_storage_changes d n = Done slots
             /\ b_acc_changes (buf_run buf_empty ops) !! n = Some calculated
             /\ forall r, about r = n -> In r reports <-> expected recorded calculated slots (default ∅ (b_st_changes (buf_run buf_empty ops) !! n)) r).
  Lemma block_about d c n blk reports e : check_block d c n blk = (reports, e) -> forall r, In r reports -> about r = n.
  Proof using.
    unfold ChangesModel.check_block. intros E r I. destruct (exec c (view_at d n) blk) as [ops rs| | |]; [|injection E as <- <-; destruct I as [ <- |[]]; reflexivity|injection E as <- <-; destruct I|injection E as <- <-; destruct I].
    destruct (read_account_changes d n) as [recorded| |]; [|injection E as <- <-; destruct I|injection E as <- <-; destruct I].
    destruct (b_acc_changes (buf_run buf_empty ops) !! n) as [calculated|]; [|injection E as <- <-; destruct I].
    destruct (read_storage_changes d n) as [slots| |]; injection E as <- <-.
    - apply in_app_iff in I as [I|I]; [now apply compare_accounts_spec in I|]. apply compare_storage_spec in I as ( -> & _). reflexivity.
    - now apply compare_accounts_spec in I.
    - now apply compare_accounts_spec in I.
  Qed.
  Lemma block_checked d c n blk h reports : read_block d n true = Done (Some (blk, h)) -> check_block d c n blk = (reports, Goes) -> checked d c n reports.
  Proof using.
    intros R E. exists blk, h. split; [exact R|]. unfold ChangesModel.check_block in E. destruct (exec c (view_at d n) blk) as [ops rs| | |] eqn:X; try discriminate E.
    - right. destruct (read_account_changes d n) as [recorded| |] eqn:A; try discriminate E. destruct (b_acc_changes (buf_run buf_empty ops) !! n) as [calculated|] eqn:C; [|discriminate E].
      destruct (read_storage_changes d n) as [slots| |] eqn:S; try discriminate E. injection E as <-. exists ops, rs, recorded, calculated, slots. repeat (split; [reflexivity|]). split; [exact C|].
      intros r B. rewrite in_app_iff, compare_accounts_spec, compare_storage_spec. destruct r as [m|m a|m a v w|m a|m|m]; cbn [expected] in *; cbn in B; subst m;
        intuition (try congruence; try discriminate).
    - left. injection E as <-. split; [reflexivity|]. intros r B. split; [intros [ <- |[]]; reflexivity|intros ->; now left].
  Qed.
  Lemma checked_ext d c n l l' : (forall r, about r = n -> In r l <-> In r l') -> checked d c n l -> checked d c n l'.
  Proof using.
    intros E (blk & h & R & [(X & I)|(ops & rs & rec & calc & sl & X & A & S & C & I)]); exists blk, h; (split; [exact R|]); [left|right].
    - split; [exact X|]. intros r B. now rewrite <- (E r B), I.
    - exists ops, rs, rec, calc, sl. repeat (split; [assumption|]). intros r B. now rewrite <- (E r B), I.
  Qed.

  Lemma loop_reports to : to < 2 ^ 64 -> forall fuel d c n reports e, check_loop fuel d c n to = (reports, e) -> forall r, In r reports -> n <= about r.
  Proof using.
    intros T. induction fuel as [|fuel I]; intros d c n reports e E r H; cbn [ChangesModel.check_loop] in E; [injection E as <- <-; destruct H|].
    destruct (N.ltb_spec n to) as [L|L]; [|injection E as <- <-; destruct H]. destruct (read_block d n true) as [[(blk & h)|]| |]; try (injection E as <- <-; now destruct H).
    destruct (check_block d c n blk) as (rep & be) eqn:B. destruct be; [|injection E as <- <-; rewrite (block_about _ _ _ _ _ _ B r H); reflexivity|injection E as <- <-; rewrite (block_about _ _ _ _ _ _ B r H); reflexivity].
    destruct (check_loop fuel d c ((n + 1) mod 2 ^ 64) to) as (later & e') eqn:K. injection E as <- <-. apply in_app_iff in H as [H|H]; [rewrite (block_about _ _ _ _ _ _ B r H); reflexivity|].
    rewrite N.mod_small in K by lia. pose proof (I _ _ _ _ _ K r H). lia.
  Qed.
  Lemma loop_checked to : to < 2 ^ 64 -> forall fuel d c n reports m, n <= to -> check_loop fuel d c n to = (reports, Checked m) ->
    n <= m /\ (m = to \/ (m < to /\ read_block d m true = Done None)) /\ (forall r, In r reports -> about r < m) /\ forall k, n <= k -> k < m -> checked d c k reports.
  Proof using.
    intros T. induction fuel as [|fuel I]; intros d c n reports m N0 E; cbn [ChangesModel.check_loop] in E; [discriminate E|].
    destruct (N.ltb_spec n to) as [L|L].
    2: { injection E as <- <-. split; [reflexivity|]. split; [left; lia|]. split; [intros r []|]. intros k A B. lia. }
    destruct (read_block d n true) as [[(blk & h)|]| |] eqn:R; try discriminate E.
    2: { injection E as <- <-. split; [reflexivity|]. split; [right; auto|]. split; [intros r []|]. intros k A B. lia. }
    destruct (check_block d c n blk) as (rep & be) eqn:B. destruct be; try discriminate E.
    destruct (check_loop fuel d c ((n + 1) mod 2 ^ 64) to) as (later & e') eqn:K. injection E as <- ->. rewrite N.mod_small in K by lia.
    destruct (I d c (n + 1) later m ltac:(lia) K) as (A1 & A2 & A3 & A4). pose proof (loop_reports to T _ _ _ _ _ _ K) as A5. pose proof (block_about _ _ _ _ _ _ B) as A6.
    split; [lia|]. split; [exact A2|]. split. { intros r H. apply in_app_iff in H as [H|H]; [rewrite (A6 r H); lia|now apply A3]. }
    intros k K1 K2. destruct (N.eq_dec k n) as [ -> |NE].
    - apply (checked_ext d c n rep); [|exact (block_checked d c n blk h rep R B)]. intros r F. rewrite in_app_iff. split; [auto|]. intros [H|H]; [exact H|]. pose proof (A5 r H). lia.
    - apply (checked_ext d c k later); [|apply A4; lia]. intros r F. rewrite in_app_iff. split; [auto|]. intros [H|H]; [|exact H]. pose proof (A6 r H). lia.
  Qed.
  (** All blocks of a range are checked when each has changes of accounts. *)
  Definition checkable (d : database) (c : chain_config) (n : N) : Prop :=
    exists blk h, read_block d n true = Done (Some (blk, h))
    /\ (exec c (view_at d n) blk = Invalid
        \/ exists ops rs recorded calculated slots, exec c (view_at d n) blk = Valid ops rs /\ read_account_changes d n = Done recorded /\ read_storage_changes d n = Done slots
             /\ b_acc_changes (buf_run buf_empty ops) !! n = Some calculated).
  Lemma loop_goes to : to < 2 ^ 64 -> forall fuel d c n, n <= to -> (N.to_nat (to - n) < fuel)%nat -> (forall k, n <= k -> k < to -> checkable d c k) -> exists reports, check_loop fuel d c n to = (reports, Checked to).
  Proof using.
    intros T. induction fuel as [|fuel I]; intros d c n N0 F H; [lia|]. cbn [ChangesModel.check_loop]. destruct (N.ltb_spec n to) as [L|L]; [|exists []; f_equal; f_equal; lia].
    destruct (H n ltac:(lia) L) as (blk & h & R & C). rewrite R. destruct (I d c (n + 1) ltac:(lia) ltac:(lia)) as (later & E). { intros k A B. apply H; lia. }
    assert (G : exists rep, check_block d c n blk = (rep, Goes)).
    { unfold ChangesModel.check_block. destruct C as [C|(ops & rs & rec & calc & sl & X & A & S & C)]; [rewrite C; eauto|]. rewrite X, A, C, S. eauto. }
    destruct G as (rep & G). rewrite G, N.mod_small, E by lia. eauto.
  Qed.
  (** A valid block without any change of an account ends the command. *)
  Lemma loop_stops fuel d c n to blk h ops rs recorded : n < to -> read_block d n true = Done (Some (blk, h)) -> exec c (view_at d n) blk = Valid ops rs ->
    read_account_changes d n = Done recorded -> b_acc_changes (buf_run buf_empty ops) !! n = None -> check_loop (S fuel) d c n to = ([], Fails).
  Proof using. intros L R X A C. cbn [ChangesModel.check_loop]. rewrite (proj2 (N.ltb_lt _ _) L), R. unfold ChangesModel.check_block. now rewrite X, A, C. Qed.
End Check.

(** *** scan_txs *)
Lemma sum_nil f a b : b <= a -> sum_over f a b = 0.
Proof. intros H. unfold sum_over. replace (N.to_nat (b - a)) with O by lia. reflexivity. Qed.
Lemma sum_app l l' : fold_right N.add 0 (l ++ l') = fold_right N.add 0 l + fold_right N.add 0 l'.
Proof. induction l as [|x l IH]; cbn [fold_right app]; lia. Qed.
Lemma sum_snoc f a b : a <= b -> sum_over f a (b + 1) = sum_over f a b + f b.
Proof.
  intros H. unfold sum_over. replace (N.to_nat (b + 1 - a)) with (S (N.to_nat (b - a))) by lia. rewrite seq_S, map_app, sum_app. cbn [map fold_right]. rewrite N.add_0_r. do 2 f_equal. lia.
Qed.
Lemma sum_ext f g a b : (forall k, a <= k -> k < b -> f k = g k) -> sum_over f a b = sum_over g a b.
Proof. intros H. unfold sum_over. f_equal. apply map_ext_in. intros i I. apply in_seq in I. apply H; lia. Qed.

Lemma row_first s n : s <= n -> (forall k, s <= k -> k < n -> k mod 50000 <> 0) -> n mod 50000 = 0 -> row_begin s n = s.
Proof.
  intros S0 NM M. unfold row_begin. destruct (N.le_gt_cases (n + 1 - 50000) s) as [L|L]; [now apply N.max_l|]. exfalso.
  assert (P : n = (n - 50000) + 1 * 50000) by (clear NM M; lia). apply (NM (n - 50000)); [clear NM M; lia|clear NM M; lia|]. rewrite P, N.mod_add in M by discriminate. exact M.
Qed.
Lemma row_next s n k : s <= n -> n mod 50000 = 0 -> n + 1 <= k -> k mod 50000 = 0 -> row_begin (n + 1) k = row_begin s k.
Proof.
  intros S0 M H1 H2. unfold row_begin. pose proof (N.div_mod n 50000 ltac:(discriminate)) as A. pose proof (N.div_mod k 50000 ltac:(discriminate)) as B. rewrite M in A. rewrite H2 in B.
  set (p := n / 50000) in *. set (q := k / 50000) in *. clearbody p q. clear M H2. assert (p + 1 <= q) by lia. rewrite !N.max_r by lia. reflexivity.
Qed.

Section Scan.
  Variable bm_read : bytes -> bitmap.
  Variable run : chain_config -> view -> block -> option (list receipt * bool).
  Notation scan_loop := (scan_loop bm_read run).
  Notation view_at := (view_at bm_read).
  Definition line_block (l : scan_line) : N := match l with Row n _ _ => n | ScanInvalid n => n end.
  (** The blocks read and executed. *)
  Definition scanned (d : database) (c : chain_config) (results : N -> list receipt * bool) (from m : N) : Prop :=
    forall k, from <= k -> k < m -> exists blk h, read_block d k true = Done (Some (blk, h)) /\ run c (view_at d k) blk = Some (results k).
  Definition result_of (d : database) (c : chain_config) (k : N) : list receipt * bool :=
    match read_block d k true with Done (Some (blk, _)) => default ([], true) (run c (view_at d k) blk) | _ => ([], true) end.

  Lemma scan_spec to d c : to < 2 ^ 64 -> let res := result_of d c in let f k := N.of_nat (length (fst (res k))) in let g k := count_failed (fst (res k)) in
    forall fuel n s txs errors lines m, s <= n -> n <= to -> (forall k, s <= k -> k < n -> k mod 50000 <> 0) -> txs = sum_over f s n mod 2 ^ 64 -> errors = sum_over g s n mod 2 ^ 64 ->
      scan_loop fuel d c n to txs errors = (lines, Checked m) ->
      n <= m /\ (m = to \/ (m < to /\ read_block d m true = Done None)) /\ scanned d c res n m
      /\ (forall k, In (ScanInvalid k) lines <-> n <= k /\ k < m /\ snd (res k) = false)
      /\ (forall k t e, In (Row k t e) lines <-> n <= k /\ k < m /\ k mod 50000 = 0 /\ t = sum_over f (row_begin s k) (k + 1) mod 2 ^ 64 /\ e = sum_over g (row_begin s k) (k + 1) mod 2 ^ 64).
  Proof using.
    intros T res f g. induction fuel as [|fuel I]; intros n s txs errors lines m S0 N0 NM Tx Er E; cbn [ChangesModel.scan_loop] in E; [discriminate E|].
    assert (Z : lines = [] -> m = n -> (forall k, In (ScanInvalid k) lines <-> n <= k /\ k < m /\ snd (res k) = false)
      /\ (forall k t e, In (Row k t e) lines <-> n <= k /\ k < m /\ k mod 50000 = 0 /\ t = sum_over f (row_begin s k) (k + 1) mod 2 ^ 64 /\ e = sum_over g (row_begin s k) (k + 1) mod 2 ^ 64)).
    { intros -> ->. split; intros k; [|intros t e]; (split; [intros []|]); intros (A & B & _); lia. }
    destruct (N.ltb_spec n to) as [L|L].
    2: { injection E as <- <-. split; [reflexivity|]. split; [left; lia|]. split; [intros k A B; lia|]. now apply Z. }
    destruct (read_block d n true) as [[(blk & h)|]| |] eqn:R; try discriminate E.
    2: { injection E as <- <-. split; [reflexivity|]. split; [right; auto|]. split; [intros k A B; lia|]. now apply Z. }
    clear Z. destruct (run c (view_at d n) blk) as [(rs & ok)|] eqn:X; [|discriminate E].
    assert (RN : res n = (rs, ok)) by (unfold res, result_of; now rewrite R, X). cbv zeta in E.
    set (txs' := (txs + N.of_nat (length rs)) mod 2 ^ 64) in E. set (err' := (errors + count_failed rs) mod 2 ^ 64) in E.
    assert (T1 : txs' = sum_over f s (n + 1) mod 2 ^ 64). { unfold txs'. rewrite sum_snoc, Tx, N.add_mod_idemp_l by lia. do 2 f_equal. unfold f. now rewrite RN. }
    assert (T2 : err' = sum_over g s (n + 1) mod 2 ^ 64). { unfold err'. rewrite sum_snoc, Er, N.add_mod_idemp_l by lia. do 2 f_equal. unfold g. now rewrite RN. }
    assert (Nx : (n + 1) mod 2 ^ 64 = n + 1) by (apply N.mod_small; lia). rewrite Nx in E.
    destruct (N.eqb_spec (n mod 50000) 0) as [M|M].
    - destruct (scan_loop fuel d c (n + 1) to 0 0) as (later & e') eqn:K. assert (e' = Checked m) as -> by congruence. assert (lines = (if ok then [] else [ScanInvalid n]) ++ [Row n txs' err'] ++ later) as -> by congruence. clear E.
      destruct (I (n + 1) (n + 1) 0 0 later m ltac:(lia) ltac:(lia) ltac:(lia)) as (A1 & A2 & A3 & A4 & A5); [now rewrite sum_nil by lia|now rewrite sum_nil by lia|exact K|].
      assert (RB : row_begin s n = s) by (apply row_first; assumption).
      assert (LT : n < m) by (clear - A1; lia). assert (UP : forall k, n + 1 <= k -> n <= k) by (clear; lia). assert (DN : forall k, n <= k -> k <> n -> n + 1 <= k) by (clear; lia).
      split; [exact (N.lt_le_incl _ _ LT)|]. split; [exact A2|]. split. { intros k K1 K2. destruct (N.eq_dec k n) as [ -> |NE]; [|apply A3; [now apply DN|assumption]]. exists blk, h. split; [exact R|]. now rewrite X, RN. }
      split.
      + intros k. rewrite !in_app_iff, A4. split.
        * intros [H|[[H|[]]|H]]; [|discriminate H|]; [|split; [apply UP, H|apply H]]. destruct ok; [destruct H|]. destruct H as [H|[]]. injection H as <-. rewrite RN. split; [reflexivity|]. split; [exact LT|reflexivity].
        * intros (H1 & H2 & H3). destruct (N.eq_dec k n) as [ -> |NE]; [left; rewrite RN in H3; cbn in H3; rewrite H3; now left|right; right; split; [now apply DN|split; assumption]].
      + intros k t e. rewrite !in_app_iff, A5.
        assert (RK : n + 1 <= k -> k mod 50000 = 0 -> row_begin (n + 1) k = row_begin s k).
        { intros H1 H2. now apply row_next. }
        split.
        * intros [H|[[H|[]]|(H1 & H2 & H3 & H4 & H5)]].
          -- destruct ok; [destruct H|]. destruct H as [H|[]]. discriminate H.
          -- injection H as <- <- <-. rewrite RB. split; [reflexivity|]. split; [exact LT|]. split; [exact M|]. split; [exact T1|exact T2].
          -- rewrite (RK H1 H3) in H4, H5. split; [exact (UP _ H1)|]. split; [exact H2|]. split; [exact H3|]. split; [exact H4|exact H5].
        * intros (H1 & H2 & H3 & H4 & H5). destruct (N.eq_dec k n) as [ -> |NE]; right; [left; left; rewrite RB in H4, H5; now rewrite T1, T2, <- H4, <- H5|].
          right. assert (KK : n + 1 <= k) by (clear - H1 NE; lia). rewrite (RK KK H3). split; [exact KK|]. split; [exact H2|]. split; [exact H3|]. split; [exact H4|exact H5].
    - destruct (scan_loop fuel d c (n + 1) to txs' err') as (later & e') eqn:K. assert (e' = Checked m) as -> by congruence. assert (lines = (if ok then [] else [ScanInvalid n]) ++ [] ++ later) as -> by congruence. clear E.
      destruct (I (n + 1) s txs' err' later m ltac:(lia) ltac:(lia)) as (A1 & A2 & A3 & A4 & A5); [|exact T1|exact T2|exact K|].
      { intros k K1 K2. destruct (N.eq_dec k n) as [ -> |NE]; [exact M|apply NM; lia]. }
      assert (LT : n < m) by (clear - A1; lia). assert (UP : forall k, n + 1 <= k -> n <= k) by (clear; lia). assert (DN : forall k, n <= k -> k <> n -> n + 1 <= k) by (clear; lia).
      split; [exact (N.lt_le_incl _ _ LT)|]. split; [exact A2|]. split. { intros k K1 K2. destruct (N.eq_dec k n) as [ -> |NE]; [|apply A3; [now apply DN|assumption]]. exists blk, h. split; [exact R|]. now rewrite X, RN. }
      split.
      + intros k. rewrite !in_app_iff, A4. split.
        * intros [H|[[]|H]]; [|split; [apply UP, H|apply H]]. destruct ok; [destruct H|]. destruct H as [H|[]]. injection H as <-. rewrite RN. split; [reflexivity|]. split; [exact LT|reflexivity].
        * intros (H1 & H2 & H3). destruct (N.eq_dec k n) as [ -> |NE]; [left; rewrite RN in H3; cbn in H3; rewrite H3; now left|right; right; split; [now apply DN|split; assumption]].
      + intros k t e. rewrite !in_app_iff, A5. split.
        * intros [H|[[]|(H1 & H2)]]; [|split; [exact (UP _ H1)|exact H2]]. destruct ok; [destruct H|]. destruct H as [H|[]]. discriminate H.
        * intros (H1 & H2 & H3 & H4). destruct (N.eq_dec k n) as [ -> |NE]; [now elim M|]. right. right. split; [clear - H1 NE; lia|]. split; [exact H2|]. split; [exact H3|exact H4].
  Qed.
  Lemma scan_goes to d c : to < 2 ^ 64 -> forall fuel n txs errors, n <= to -> (N.to_nat (to - n) < fuel)%nat ->
    (forall k, n <= k -> k < to -> exists blk h res, read_block d k true = Done (Some (blk, h)) /\ run c (view_at d k) blk = Some res) -> exists lines, scan_loop fuel d c n to txs errors = (lines, Checked to).
  Proof using.
    intros T. induction fuel as [|fuel I]; intros n txs errors N0 F H; [lia|]. cbn [ChangesModel.scan_loop]. destruct (N.ltb_spec n to) as [L|L]; [|exists []; f_equal; f_equal; lia].
    destruct (H n ltac:(lia) L) as (blk & h & (rs & ok) & R & C). rewrite R, C. cbv zeta. rewrite N.mod_small with (a := n + 1) by lia.
    destruct (n mod 50000 =? 0);
      match goal with |- context [scan_loop fuel d c (n + 1) to ?a ?b] => destruct (I (n + 1) a b ltac:(lia) ltac:(lia)) as (later & E); [intros k A B; apply H; lia|]; rewrite E; eauto end.
  Qed.
End Scan.
