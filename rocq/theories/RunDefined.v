(** The reference machine is defined on every block, but for the sequence it excludes. *)
From stdpp Require Import gmap.
From Coq Require Import ZArith.
From Verif Require Import Base RlpModel TxModel BlockModel TypesModel ChainModel StateModel StateSpec MemBufModel MemBufSpec EvmModel EvmSpec ProcessorModel ProcessorSpec ScriptSpec ScriptEvm RunSpec.

Section Defined.
  Variable keccak : bytes -> bytes.
  (** without the excluded sequence *)
  Notation cs := (fun _ : N => false).
  Notation arun_s := (arun_script keccak elements cs).
  Notation post A := (A -> world -> list world -> nat -> Prop).

  Definition tot {A} (P : world -> list world -> nat -> Prop) (p : prg A) (Q : post A) : Prop :=
    forall d w sn, P w sn d -> exists a d' ops w' sn', arun_s (p d) (w, sn) = Some ((a, d'), ops, (w', sn')) /\ Q a w' sn' d'.
  Definition inv (B : N -> Prop) (sn0 : list world) (w : world) (sn : list world) (d : nat) : Prop :=
    d = length sn /\ (exists ex, sn = sn0 ++ ex) /\ (forall x, B x -> contract_in w x = true) /\ coded w.
  Definition okt {A} (p : prg A) : Prop := forall B sn0, tot (inv B sn0) p (fun _ => inv B sn0).

  Lemma b_run {A B} (t : script A) (f : A -> script B) : forall y a ops y1 b ops2 y2, arun_s t y = Some (a, ops, y1) -> arun_s (f a) y1 = Some (b, ops2, y2) -> arun_s (bind_script t f) y = Some (b, ops ++ ops2, y2).
  Proof.
    induction t as [a|o k IH|k IH|k IH]; intros y a' ops y1 b ops2 y2; cbn [bind_script arun_script].
    - now intros [= <- <- <-] E.
    - destruct (astep keccak cs y o) as [[v y3]|]; [|discriminate]. destruct (arun_s (k v) y3) as [[[a1 o1] y4]|] eqn:E; [|discriminate]. intros [= <- <- <-] E2. now rewrite (IH v _ _ _ _ _ _ _ E E2).
    - destruct (astep keccak cs y _) as [[v y3]|]; [|discriminate]. destruct (arun_s k y3) as [[[a1 o1] y4]|] eqn:E; [|discriminate]. intros [= <- <- <-] E2. now rewrite (IH _ _ _ _ _ _ _ E E2).
    - destruct (astep keccak cs y _) as [[v y3]|]; [|discriminate]. destruct (arun_s k y3) as [[[a1 o1] y4]|] eqn:E; [|discriminate]. intros [= <- <- <-] E2. now rewrite (IH _ _ _ _ _ _ _ E E2).
  Qed.
  Lemma x_bind {A B} P (p : prg A) (M : post A) (q : A -> prg B) (Q : post B) : tot P p M -> (forall a, tot (M a) (q a) Q) -> tot P (bind p q) Q.
  Proof.
    intros Hp Hq d w sn HP. destruct (Hp d w sn HP) as (a & d1 & o1 & w1 & sn1 & E1 & HM). destruct (Hq a d1 w1 sn1 HM) as (b & d2 & o2 & w2 & sn2 & E2 & HQ).
    exists b, d2, (o1 ++ o2), w2, sn2. split; [|exact HQ]. unfold bind. now apply (b_run _ _ _ (a, d1) o1 (w1, sn1)).
  Qed.
  Lemma x_ret {A} (P : world -> list world -> nat -> Prop) (a : A) (Q : post A) : (forall w sn d, P w sn d -> Q a w sn d) -> tot P (ret a) Q.
  Proof. intros H d w sn HP. exists a, d, [], w, sn. split; [reflexivity|auto]. Qed.
  Lemma x_conseq {A} (P P' : world -> list world -> nat -> Prop) (p : prg A) (Q Q' : post A) : (forall w sn d, P w sn d -> P' w sn d) -> (forall a w sn d, Q' a w sn d -> Q a w sn d) -> tot P' p Q' -> tot P p Q.
  Proof. intros H1 H2 H d w sn HP. destruct (H d w sn (H1 _ _ _ HP)) as (a & d1 & o1 & w1 & sn1 & E1 & HM). exists a, d1, o1, w1, sn1. auto. Qed.
  Lemma k_bind {A B} (p : prg A) (q : A -> prg B) : okt p -> (forall a, okt (q a)) -> okt (bind p q).
  Proof. intros Hp Hq C sn0. eapply x_bind; [apply Hp|]. intros a. apply Hq. Qed.
  Lemma k_ret {A} (a : A) : okt (ret a).
  Proof. intros C sn0. now apply x_ret. Qed.
  Lemma k_when b p : okt p -> okt (when b p).
  Proof. intros H. destruct b; [exact H|apply k_ret]. Qed.
  Lemma k_each {A} (f : A -> prg unit) l : (forall a, okt (f a)) -> okt (each f l).
  Proof. intros H. induction l as [|a t IH]; cbn [each]; [apply k_ret|]. apply k_bind; [apply H|]. intros ?u. exact IH. Qed.

  Definition plain (o : op) : bool :=
    match o with OSetStorage _ _ _ | OSetCode _ _ | OCreate _ | OSnapshot | ORevert _ | OFinalize | ODestruct _ | ODestructSuicides _ | ODestructTouchedDead _ | OClear => false | _ => true end.
  (** kept by a step: contracts stay contracts, code lies in contracts *)
  Definition grows (w w' : world) : Prop := (forall x, contract_in w x = true -> contract_in w' x = true) /\ (coded w -> coded w').
  Lemma grows_modify w a f : (forall c, ac_code (f c) = ac_code c /\ ac_contract (f c) = ac_contract c) -> grows w (w_modify w a f).
  Proof.
    intros Hf. assert (G : coded w -> ac_code (w_get w a) <> [] -> ac_contract (w_get w a) = true). { intros I2. unfold w_get. destruct (w_acct w a) as [c|] eqn:E; [apply (I2 a c E)|now cbn]. }
    split.
    - intros x. unfold contract_in. cbn. unfold upd. destruct (N.eqb_spec x a) as [->|]; [|auto]. destruct (Hf (w_get w a)) as [_ ->]. unfold w_get. destruct (w_acct w a); [auto|discriminate].
    - intros I2 x c. cbn. unfold upd. destruct (N.eqb_spec x a) as [->|]; [|apply I2]. intros [= <-]. destruct (Hf (w_get w a)) as [-> ->]. auto.
  Qed.
  Lemma grows_same w w' : (forall a, w_acct w' a = w_acct w a) -> grows w w'.
  Proof. intros Ha. split; [intros x; unfold contract_in; now rewrite Ha|intros I2 x c; rewrite Ha; apply I2]. Qed.
  Lemma step_plain o w sn : plain o = true -> exists v w', astep keccak cs (w, sn) o = Some (v, (w', sn)) /\ grows w w'.
  Proof.
    intros K. destruct o; try discriminate; cbn [astep]; eexists _, _; (split; [reflexivity|]); try (now apply grows_modify); try (match goal with |- grows _ (w_touch ?x _) => exact (grows_modify _ _ _ (fun c => conj eq_refl eq_refl)) end); now apply grows_same.
  Qed.
  Lemma inv_grows B sn0 w sn d w' : inv B sn0 w sn d -> grows w w' -> inv B sn0 w' sn d.
  Proof. intros (H1 & H2 & H3 & H4) [G1 G2]. split; [exact H1|]. split; [exact H2|]. split; [intros x Hx; apply G1, H3, Hx|auto]. Qed.
  Ltac basic o := intros K B sn0 d w sn H; destruct (step_plain o w sn K) as (v & w' & E & G); eexists _, d, [o], w', sn; cbn [arun_script]; split; [unfold num, boo, byt, lgs, cmd; cbn [arun_script]; rewrite E; reflexivity|]; now apply (inv_grows B sn0 w).
  Lemma k_num o : plain o = true -> okt (num o). Proof. basic o. Qed.
  Lemma k_boo o : plain o = true -> okt (boo o). Proof. basic o. Qed.
  Lemma k_byt o : plain o = true -> okt (byt o). Proof. basic o. Qed.
  Lemma k_lgs o : plain o = true -> okt (lgs o). Proof. basic o. Qed.
  Lemma k_cmd o : plain o = true -> okt (cmd o). Proof. basic o. Qed.
  Lemma x_set_storage a k v (B : N -> Prop) sn0 : B a -> tot (inv B sn0) (cmd (OSetStorage a k v)) (fun _ => inv B sn0).
  Proof.
    intros Ha d w sn H. pose proof H as (H1 & H2 & H3 & H4). specialize (H3 a Ha). unfold contract_in in H3. destruct (w_acct w a) as [c|] eqn:E; [|discriminate].
    eexists tt, d, _, _, sn. split; [unfold cmd; cbn [arun_script astep]; unfold w_exists, w_get; rewrite E, H3; cbn [andb]; reflexivity|]. apply (inv_grows B sn0 w); [exact H|]. now apply grows_same.
  Qed.
  Lemma x_create c (B : N -> Prop) sn0 : tot (inv B sn0) (cmd (OCreate c)) (fun _ => inv (fun x => B x \/ x = c) sn0).
  Proof.
    intros d w sn (H1 & H2 & H3 & H4). eexists tt, d, _, _, sn. split; [unfold cmd; cbn [arun_script astep andb]; reflexivity|]. split; [exact H1|]. split; [exact H2|]. split.
    - intros x Hx. unfold contract_in. cbn. unfold upd. destruct (N.eqb_spec x c) as [->|Hn]; [reflexivity|]. apply H3. tauto.
    - intros x c1. cbn. unfold upd. destruct (x =? c); [now intros [= <-]|apply H4].
  Qed.
  Lemma x_set_code c code (B : N -> Prop) sn0 : B c -> tot (inv B sn0) (cmd (OSetCode c code)) (fun _ => inv B sn0).
  Proof.
    intros Hc d w sn (H1 & H2 & H3 & H4). pose proof (H3 c Hc) as Hk. unfold contract_in in Hk. destruct (w_acct w c) as [cc|] eqn:Ec; [|discriminate].
    eexists tt, d, _, _, sn. split; [unfold cmd; cbn [arun_script astep]; reflexivity|]. split; [exact H1|]. split; [exact H2|]. split.
    - intros x Hx. unfold contract_in. cbn. unfold upd. destruct (N.eqb_spec x c) as [->|Hn]; [cbn; unfold w_get; now rewrite Ec|]. now apply H3.
    - intros x c1. cbn. unfold upd. destruct (N.eqb_spec x c) as [->|Hn]; [|apply H4]. intros [= <-] _. cbn. unfold w_get. now rewrite Ec.
  Qed.
  Lemma x_snap {A} B sn0 (k : nat -> prg A) (Q : post A) : (forall w sn, inv B sn0 w sn (length sn) -> tot (inv B (sn ++ [w])) (k (length sn)) Q) -> tot (inv B sn0) (bind snap k) Q.
  Proof.
    intros H d w sn Hi. pose proof Hi as (H1 & H2 & H3 & H4). subst d. destruct (H w sn Hi (S (length sn)) w (sn ++ [w])) as (a & d1 & o1 & w1 & sn1 & E1 & HQ).
    { split; [rewrite app_length; cbn; lia|]. split; [exists []; now rewrite app_nil_r|]. now split. }
    exists a, d1, (OSnapshot :: o1), w1, sn1. split; [|exact HQ]. cbn. now rewrite E1.
  Qed.
  Lemma inv_weak (B B' : N -> Prop) sn0 w sn d : (forall x, B' x -> B x) -> inv B sn0 w sn d -> inv B' sn0 w sn d.
  Proof. intros HB (H1 & H2 & H3 & H4). split; [exact H1|]. split; [exact H2|]. split; [auto|exact H4]. Qed.
  Lemma inv_shrink B B' sn0 w sn w' sn' d : inv B sn0 w sn (length sn) -> inv B' (sn ++ [w]) w' sn' d -> (forall x, B x -> B' x) -> inv B sn0 w' sn' d.
  Proof. intros (_ & (e & ->) & _) (H1 & (e2 & ->) & H3 & H4) HB. split; [exact H1|]. split; [|split; [auto|exact H4]]. exists (e ++ [w] ++ e2). now rewrite <- !app_assoc. Qed.
  (** returns, with gas between 0 and g *)
  Definition returns (g : Z) (P : world -> list world -> nat -> Prop) : post answer := fun r w sn d => P w sn d /\ exists r', r = AReturns r' /\ (0 <= r_gas r' <= g)%Z.
  Lemma x_settle (B : N -> Prop) sn0 w sn (B' : N -> Prop) r g : inv B sn0 w sn (length sn) -> (forall x, B x -> B' x) -> (0 <= r_gas r <= g)%Z ->
    tot (inv B' (sn ++ [w])) (t_settle (length sn) r) (returns g (inv B sn0)).
  Proof.
    intros Hi HB Hg. unfold t_settle. destruct (is_success _).
    - apply x_ret. intros w1 sn1 d H. split; [now apply (inv_shrink B B' sn0 w sn)|eauto].
    - intros d w1 sn1 (H1 & (e & ->) & H3 & H4). eexists _, _, _, _, _. split.
      + cbn. rewrite <- app_assoc, nth_error_app2, Nat.sub_diag by lia. cbn [nth_error app]. reflexivity.
      + split; [|eexists; split; [reflexivity|destruct (is_revert _); cbn; lia]]. destruct Hi as (_ & He & G3 & G4). replace (firstn (S (length sn)) (sn ++ w :: e)) with (sn ++ [w]).
        2: { change (w :: e) with ([w] ++ e). rewrite app_assoc. replace (S (length sn)) with (length (sn ++ [w])) by (rewrite app_length; cbn; lia). now rewrite firstn_app, Nat.sub_diag, firstn_all, firstn_O, app_nil_r. }
        split; [rewrite app_length; cbn; lia|]. split; [destruct He as (e0 & ->); exists (e0 ++ [w]); now rewrite app_assoc|]. split; [exact G3|exact G4].
  Qed.

  Section Block.
    Variable rev : N.
    Variable pre_gas : N -> bytes -> N -> N.
    Variable pre_run : N -> bytes -> option bytes.
    Variable block_hash : N -> bytes.
    Variable interp : message -> bytes -> prog.
    Variable strict : bool.
    Hypothesis Hlaw : lawful strict interp.
    Ltac one := first [apply k_ret | apply k_num; reflexivity | apply k_boo; reflexivity | apply k_byt; reflexivity | apply k_cmd; reflexivity | apply k_lgs; reflexivity | apply k_when | apply k_bind; [|intros ?u] | progress cbv zeta].
    Ltac all := repeat first [one | match goal with |- okt (if ?b then _ else _) => destruct b end].

    Lemma s_set_storage a key v (B : N -> Prop) sn0 : B a -> tot (inv B sn0) (t_set_storage rev a key v) (fun _ => inv B sn0).
    Proof.
      intros Ha. unfold t_set_storage. eapply x_bind; [now apply k_num|]. intros current. cbv beta. destruct (_ =? _); [apply k_ret|]. eapply x_bind; [now apply x_set_storage|]. intros ?u. cbv beta zeta.
      match goal with |- tot (inv B sn0) ?p _ => assert (K : okt p) by all; apply K end.
    Qed.
    (** a call the contract of the interpreter allows *)
    Definition proper (fuel : nat) (B : N -> Prop) (st : list N) (m : message) : Prop :=
      (0 <= m_gas m)%Z /\ m_depth m <= 1024 /\ 1025 <= N.of_nat fuel + m_depth m /\ (m_kind m = KCallcode -> B (m_sender m)) /\ (m_kind m = KDelegatecall -> exists x, hd_error st = Some x /\ B x).
    Lemma s_run fuel callf self g depth (B : N -> Prop) sn0 st p : B self -> depth <= 1024 -> 1024 <= N.of_nat fuel + depth ->
      (forall m, proper fuel B (self :: st) m -> tot (inv B sn0) (callf m) (returns (m_gas m) (inv B sn0))) ->
      contract strict self g depth p -> tot (inv B sn0) (t_run rev block_hash callf p) (returns g (inv B sn0)).
    Proof.
      intros HB Hd Hf H. induction p as [r|a k IH|a key k IH|a key v k IH|a k IH|a k IH|a k IH|a o n k IH|a b k IH|m k IH|n k IH|l k IH|a k IH|a key k IH]; cbn [t_run contract]; intros HC.
      - apply x_ret. intros w sn d Hi. split; [exact Hi|eauto].
      - eapply x_bind; [|intros ?u; now apply IH]. unfold t_account_exists. match goal with |- tot _ ?p _ => assert (K : okt p) by all; apply K end.
      - eapply x_bind; [now apply k_num|intros ?u; now apply IH].
      - destruct HC as [-> HC]. eapply x_bind; [now apply s_set_storage|intros ?u; now apply IH].
      - eapply x_bind; [now apply k_num|intros ?u; now apply IH].
      - eapply x_bind; [now apply k_byt|intros ?u; now apply IH].
      - eapply x_bind; [|intros ?u; now apply IH]. unfold t_get_code_hash. match goal with |- tot _ ?p _ => assert (K : okt p) by all; apply K end.
      - eapply x_bind; [|intros ?u; now apply IH]. unfold t_copy_code. match goal with |- tot _ ?p _ => assert (K : okt p) by all; apply K end.
      - destruct HC as (-> & _ & HC). eapply x_bind; [|intros ?u; now apply IH]. unfold t_selfdestruct. match goal with |- tot _ ?p _ => assert (K : okt p) by all; apply K end.
      - destruct HC as (H1 & H2 & H3 & H4 & H5). eapply x_bind.
        + apply H. split; [exact H4|]. split; [exact H3|]. split; [lia|]. split; [intros E; rewrite H1 by congruence; exact HB|intros _; exists self; now split].
        + intros r d w sn (Hi & r' & -> & Hr). apply (IH r'); [now apply H5|exact Hi].
      - apply IH, HC.
      - eapply x_bind; [now apply k_cmd|intros ?u; now apply IH].
      - eapply x_bind; [|intros ?u; now apply IH]. unfold t_access_account. match goal with |- tot _ ?p _ => assert (K : okt p) by all; apply K end.
      - eapply x_bind; [now apply k_boo|intros ?u; now apply IH].
    Qed.
    Section Body.
      Variable fuel : nat.
      Variable rec : list N -> message -> prg answer.
      Hypothesis Hrec : forall B sn0 st m, proper fuel B st m -> tot (inv B sn0) (rec st m) (returns (m_gas m) (inv B sn0)).
      Lemma s_execute (B : N -> Prop) sn0 st m code : B (m_destination m) -> (0 <= m_gas m)%Z -> m_depth m <= 1024 -> 1024 <= N.of_nat fuel + m_depth m ->
        tot (inv B sn0) (t_execute rev block_hash interp rec st m code) (returns (m_gas m) (inv B sn0)).
      Proof. intros HB Hg Hd Hf. unfold t_execute. apply (s_run fuel _ (m_destination m) _ (m_depth m) B sn0 st); auto. Qed.
      Definition sane (m : message) := (0 <= m_gas m)%Z /\ m_depth m <= 1024 /\ 1024 <= N.of_nat fuel + m_depth m.
      Lemma s_create (B : N -> Prop) sn0 st m : sane m -> tot (inv B sn0) (t_create keccak rev block_hash interp rec st m) (returns (m_gas m) (inv B sn0)).
      Proof.
        intros (Hg & Hd & Hf). unfold t_create. eapply x_bind; [now apply k_num|]. intros bal. cbv beta. destruct (_ <? _); [apply x_ret; intros w sn d Hi; split; [exact Hi|eexists; split; [reflexivity|cbn; lia]]|].
        eapply x_bind; [now apply k_num|]. intros nonce. cbv beta. eapply x_bind; [now apply k_cmd|]. intros ?u.
        cbv beta zeta. set (contract := match m_kind m with KCreate2 => _ | _ => _ end). clearbody contract. eapply x_bind; [now apply k_boo|]. intros ?u. cbv beta. eapply x_bind; [now apply k_num|]. intros cn. cbv beta.
        eapply (x_bind _ _ (fun _ => inv B sn0)); [match goal with |- tot _ ?p _ => assert (K : okt p) by all; apply K end|]. intros ch. cbv beta.
        destruct (_ || _); [apply x_ret; intros w sn d Hi; split; [exact Hi|eexists; split; [reflexivity|cbn; lia]]|]. apply x_snap. intros w sn Hi.
        eapply x_bind; [apply x_create|]. intros ?u. cbv beta. eapply x_bind; [apply k_when; now apply k_cmd|]. intros ?u. cbv beta. eapply x_bind; [now apply k_cmd|]. intros ?u. cbv beta.
        eapply x_bind; [now apply k_cmd|]. intros ?u. cbv beta. eapply x_bind; [apply s_execute; cbn; auto|]. cbn [m_gas]. intros r d1 w1 sn1 (Hi1 & r' & -> & Hr). revert d1 w1 sn1 Hi1.
        change (tot (inv (fun x => B x \/ x = contract) (sn ++ [w])) (do r <- t_deploy rev contract r'; t_settle (length sn) (if is_success (r_status r) then mkRes (r_status r) (r_gas r) (r_output r) contract else r)) (returns (m_gas m) (inv B sn0))).
        eapply (x_bind _ _ (fun r w' sn' d => inv (fun x => B x \/ x = contract) (sn ++ [w]) w' sn' d /\ (0 <= r_gas r <= m_gas m)%Z)).
        - unfold t_deploy. cbv zeta. destruct (is_success _); [|now apply x_ret]. destruct (_ && _); [now apply x_ret|]. destruct (_ && _); [now apply x_ret|]. destruct (_ && _) eqn:Eg; [|destruct (EVMC_HOMESTEAD <=? rev); now apply x_ret].
          eapply x_bind; [apply x_set_code; now right|]. intros ?u. apply x_ret. intros w2 sn2 d2 H2. split; [exact H2|]. cbn [r_gas]. apply andb_prop in Eg as [E1 E2]. apply N.leb_le in E2. apply Z.leb_le in E1. lia.
        - intros r d1 w1 sn1 (Hi1 & Hr1). revert d1 w1 sn1 Hi1. apply (x_settle B sn0 w sn); [exact Hi|auto|]. destruct (is_success _); exact Hr1.
      Qed.
      Lemma s_call (B : N -> Prop) sn0 st m : sane m -> (m_kind m = KCallcode -> B (m_sender m)) -> (m_kind m = KDelegatecall -> exists x, hd_error st = Some x /\ B x) ->
        tot (inv B sn0) (t_call rev pre_gas pre_run block_hash interp rec st m) (returns (m_gas m) (inv B sn0)).
      Proof.
        intros (Hg & Hd & Hf) Hcc Hdc. unfold t_call. eapply (x_bind _ _ (fun _ => inv B sn0)); [match goal with |- tot _ ?p _ => assert (K : okt p) by (destruct (m_kind m); all); apply K end|]. intros poor. cbv beta.
        destruct poor; [apply x_ret; intros w sn d Hi; split; [exact Hi|eexists; split; [reflexivity|cbn; lia]]|].
        assert (Hr : exists recipient, EvmModel.recipient_of st m = Some recipient /\ (B recipient \/ recipient = m_destination m)).
        { unfold EvmModel.recipient_of. destruct (m_kind m) eqn:E; eauto. destruct (Hdc eq_refl) as (x & E1 & HB). eauto. }
        destruct Hr as (recipient & -> & Hrec2). cbv zeta.
        eapply (x_bind _ _ (fun _ => inv B sn0)); [match goal with |- tot _ ?p _ => assert (K : okt p) by all; apply K end|]. intros skip. cbv beta.
        destruct skip; [apply x_ret; intros w sn d Hi; split; [exact Hi|eexists; split; [reflexivity|cbn; lia]]|]. apply x_snap. intros w sn Hi.
        eapply (x_bind _ _ (fun _ => inv B (sn ++ [w]))).
        { match goal with |- tot _ ?p _ => assert (K : okt p) by (destruct (m_kind m); all); apply K end. }
        intros ?u. cbv beta. destruct (is_precompiled _ _).
        { apply (x_settle B sn0 w sn); auto. unfold run_precompiled. cbv zeta. destruct (_ || _) eqn:Eg; [cbn; lia|]. apply Bool.orb_false_iff in Eg as [E1 E2]. apply Z.ltb_ge in E1, E2. destruct (pre_run _ _); cbn [r_gas]; lia. }
        eapply (x_bind _ _ (fun code w' sn' d => inv B (sn ++ [w]) w' sn' d /\ (code <> [] -> contract_in w' (m_destination m) = true))).
        { intros d w1 sn1 H1. eexists _, d, _, w1, sn1. split; [unfold byt; cbn; reflexivity|]. split; [exact H1|]. destruct H1 as (_ & _ & _ & Hc). unfold w_get, contract_in. destruct (w_acct w1 (m_destination m)) eqn:E; [apply (Hc _ _ E)|now cbn]. }
        intros code d1 w1 sn1 (H1 & Hc). destruct code as [|b code]; [exists (AReturns (mkRes SUCCESS (m_gas m) [] 0)), d1, [], w1, sn1; split; [reflexivity|]; split; [now apply (inv_shrink B B sn0 w sn)|eexists; split; [reflexivity|cbn; lia]]|].
        specialize (Hc ltac:(discriminate)). assert (H2 : inv (fun x => B x \/ x = m_destination m) (sn ++ [w]) w1 sn1 d1).
        { destruct H1 as (G1 & G2 & G3 & G4). split; [exact G1|]. split; [exact G2|]. split; [intros x [Hx| ->]; auto|exact G4]. }
        revert d1 w1 sn1 H1 Hc H2. enough (T : tot (inv (fun x => B x \/ x = m_destination m) (sn ++ [w]))
          (do _ <- byt (OCodeHash (m_destination m)); do r <- t_execute rev block_hash interp rec st (with_destination m recipient) (b :: code); match r with AReturns r0 => t_settle (length sn) r0 | _ => ret r end) (returns (m_gas m) (inv B sn0))).
        { intros d1 w1 sn1 _ _ H2. exact (T d1 w1 sn1 H2). }
        eapply x_bind; [now apply k_byt|]. intros ?u. cbv beta. eapply x_bind; [apply s_execute; cbn; auto|]. cbn [with_destination m_gas]. intros r d1 w1 sn1 (Hi1 & r' & -> & Hr). revert d1 w1 sn1 Hi1. apply (x_settle B sn0 w sn); auto.
      Qed.
      Lemma s_host_body (B : N -> Prop) sn0 st m : proper (S fuel) B st m -> tot (inv B sn0) (t_host_call_body keccak rev pre_gas pre_run block_hash interp rec st m) (returns (m_gas m) (inv B sn0)).
      Proof.
        intros (H1 & H2 & H3 & H4 & H5). assert (Hs : sane m) by (split; [exact H1|split; [exact H2|lia]]). unfold t_host_call_body. destruct (m_kind m) eqn:E; try (apply s_call; [exact Hs|intros E'; apply H4; congruence|intros E'; apply H5; congruence]);
          (eapply x_bind; [now apply s_create|]; intros r d w sn (Hi & r' & -> & Hr); eexists _, d, [], w, sn; split; [reflexivity|]; split; [exact Hi|]; eexists; split; [reflexivity|]; destruct (is_revert _); cbn; lia).
      Qed.
    End Body.
    Lemma s_host fuel : forall B sn0 st m, proper fuel B st m -> tot (inv B sn0) (t_host_call keccak rev pre_gas pre_run block_hash interp fuel st m) (returns (m_gas m) (inv B sn0)).
    Proof. induction fuel as [|n IH]; intros B sn0 st m Hp; cbn [t_host_call]; [destruct Hp as (_ & H2 & H3 & _); lia|]. now apply (s_host_body n). Qed.
    Lemma s_txn fuel (B : N -> Prop) sn0 to from gas data value : gas < 2 ^ 63 -> (1024 <= fuel)%nat ->
      tot (inv B sn0) (t_execute_txn keccak rev pre_gas pre_run block_hash interp fuel to from gas data value) (returns (Z.of_N gas) (inv B sn0)).
    Proof.
      intros Hg Hf. assert (E : m_gas (tx_message to from gas data value) = Z.of_N gas). { cbn. unfold to_i64. now rewrite (proj2 (N.ltb_lt _ _) Hg). } rewrite <- E.
      assert (Hs : sane fuel (tx_message to from gas data value)) by (split; [rewrite E; lia|cbn; lia]). unfold t_execute_txn.
      destruct to; [apply (s_call fuel)|apply (s_create fuel)]; try exact Hs; try (intros; now apply s_host); cbn; discriminate.
    Qed.

    Variable fuel : nat.
    Hypothesis Hfuel : (1024 <= fuel)%nat.
    Variable header : block_header.
    Definition edge := inv (fun _ => False) [].
    Lemma edge_intro w : coded w -> edge w [] 0.
    Proof. intros H. split; [reflexivity|]. split; [now exists []|]. split; [tauto|exact H]. Qed.
    Lemma coded_destruct w a : coded w -> coded (w_destruct w a).
    Proof. intros I2 x c. cbn. unfold upd. destruct (x =? a); [discriminate|apply I2]. Qed.
    Lemma e_fin o : o = OClear \/ o = OFinalize -> tot edge (fin o) (fun _ => edge).
    Proof. intros [-> | ->] d w sn (_ & _ & _ & H); (eexists _, _, _, _, _; split; [cbn; reflexivity|]); now apply edge_intro. Qed.
    Lemma e_suicides : tot edge suicides (fun _ => edge).
    Proof.
      intros d w sn (_ & _ & _ & H). eexists _, _, _, _, _. split; [cbn; rewrite bool_decide_eq_true_2 by reflexivity; reflexivity|]. apply edge_intro. generalize (elements (w_suicides w)). intros l. revert w H.
      induction l as [|x l IH]; intros w H; cbn [fold_left]; [exact H|]. now apply IH, coded_destruct.
    Qed.
    Lemma e_touched : tot edge touched_dead (fun _ => edge).
    Proof.
      intros d w sn (_ & _ & _ & H). eexists _, _, _, _, _. split; [cbn; rewrite bool_decide_eq_true_2 by reflexivity; reflexivity|]. apply edge_intro. generalize (elements (w_touched w)). intros l. revert w H.
      induction l as [|x l IH]; intros w H; cbn [fold_left]; [exact H|]. apply IH. destruct (w_dead w x); [now apply coded_destruct|exact H].
    Qed.
    Lemma e_ok {A} (p : prg A) : okt p -> tot edge p (fun _ => edge). Proof. intros H. apply H. Qed.
    Lemma e_prepare t : tot edge (t_prepare header t) (fun _ => edge).
    Proof.
      unfold t_prepare. eapply x_bind; [apply e_fin; now left|]. intros ?u. apply e_ok. apply k_bind; [now apply k_boo|]. intros ?u0. apply k_bind; [now apply k_cmd|]. intros ?u0.
      apply k_bind; [destruct (tx_recipient t); all|]. intros ?u0. apply k_each. intros e. apply k_bind; [now apply k_boo|]. intros ?u0. apply k_each. intros k. all.
    Qed.
    Lemma sub64_small a b : b <= a < 2 ^ 63 -> sub64 a (b mod 2 ^ 64) < 2 ^ 63.
    Proof.
      intros H. assert (b < 2 ^ 64) by (change (2 ^ 63) with 9223372036854775808 in H; change (2 ^ 64) with 18446744073709551616; lia). rewrite N.mod_small by assumption. unfold sub64.
      replace (a + 2 ^ 64 - b) with (a - b + 1 * 2 ^ 64) by lia. rewrite N.mod_add by discriminate. rewrite N.mod_small; [lia|]. change (2 ^ 63) with 9223372036854775808 in H. change (2 ^ 64) with 18446744073709551616. lia.
    Qed.
    Definition full {A} (P : world -> list world -> nat -> Prop) : post (option A) := fun r w sn d => r <> None /\ P w sn d.
    Lemma e_transaction cumulative t : fits rev t -> tot edge (t_transaction keccak rev pre_gas pre_run block_hash interp fuel header cumulative t) (full edge).
    Proof.
      intros Hf. unfold t_transaction. eapply x_bind; [apply e_prepare|]. intros ?u. cbv beta zeta. eapply x_bind; [apply s_txn; [now apply sub64_small|exact Hfuel]|]. intros r d w sn (Hi & r' & -> & _). revert d w sn Hi.
      match goal with |- forall d w sn, inv _ _ w sn d -> exists a d' ops w' sn', arun_s (?p d) (w, sn) = _ /\ _ => change (tot edge p (full edge)) end.
      eapply (x_bind _ _ (fun _ => edge)); [apply e_ok; unfold t_refund; all|]. intros gas_left. cbv beta. eapply x_bind; [apply e_ok; now apply k_cmd|]. intros ?u. cbv beta. eapply x_bind; [apply e_suicides|]. intros ?u. cbv beta.
      eapply (x_bind _ _ (fun _ => edge)); [unfold when; destruct (_ <=? _); [apply e_touched|now apply x_ret]|]. intros ?u. cbv beta. eapply x_bind; [apply e_fin; now right|]. intros ?u. cbv beta.
      eapply x_bind; [apply e_ok; now apply k_lgs|]. intros l. cbv beta. apply x_ret. intros w sn d H. now split.
    Qed.
    Lemma k_validate cumulative t : okt (t_validate header cumulative t).
    Proof. unfold t_validate. destruct (tx_from t); all. Qed.
    Lemma e_transactions ts : Forall (fits rev) ts -> forall cumulative, tot edge (t_transactions keccak rev pre_gas pre_run block_hash interp fuel header cumulative ts) (full edge).
    Proof.
      induction 1 as [|t ts Ht Hts IH]; intros cumulative; cbn [t_transactions]; [apply x_ret; intros w sn d H; now split|]. eapply x_bind; [apply e_ok, k_validate|]. intros err. cbv beta. destruct err; try (apply x_ret; intros w sn d H; now split).
      eapply x_bind; [now apply e_transaction|]. intros [[r c]|] d w sn [Hn Hi]; [|now destruct Hn]. revert d w sn Hi.
      match goal with |- forall d w sn, edge w sn d -> exists a d' ops w' sn', arun_s (?p d) (w, sn) = _ /\ _ => change (tot edge p (full edge)) end.
      eapply x_bind; [apply IH|]. intros [[rs err]|]; apply x_ret; intros w sn d [Hn2 Hi2]; [now split|now destruct Hn2].
    Qed.
    Lemma k_ommers ommers : forall miner, okt (t_ommers rev header miner ommers).
    Proof. induction ommers as [|o t IH]; intros miner; cbn [t_ommers]; [apply k_ret|]. apply k_bind; [now apply k_cmd|]. intros ?u. apply IH. Qed.
    Lemma e_block root config ts ommers w : Forall (fits rev) ts -> coded w ->
      exists rs v d ops w' sn, arun_s (t_block keccak rev pre_gas pre_run block_hash interp fuel header root config ts ommers) (w, []) = Some ((Some (rs, v), d), ops, (w', sn)).
    Proof.
      intros Hts H. unfold t_block. match goal with |- exists rs v d ops w' sn, arun_s (?p 0%nat) _ = _ => assert (G : tot edge p (full edge)) end.
      2: { destruct (G O w [] (edge_intro w H)) as ([[rs v]|] & d & ops & w' & sn & E & [Hn _]); [|now destruct Hn]. now exists rs, v, d, ops, w', sn. }
      eapply (x_bind _ _ (fun _ => edge)).
      - destruct (cfg_dao_block config); [|now apply x_ret]. apply e_ok, k_when. unfold t_transfer_balances. apply k_each. intros a. all.
      - intros ?u. cbv beta. eapply x_bind; [now apply e_transactions|]. intros [[rs err]|] d0 w0 sn0 [Hn Hi]; [|now destruct Hn]. revert d0 w0 sn0 Hi.
        match goal with |- forall d w sn, edge w sn d -> exists a d' ops w' sn', arun_s (?p d) (w, sn) = _ /\ _ => change (tot edge p (full edge)) end.
        destruct err; try (apply x_ret; intros w1 sn1 d1 H1; now split).
        eapply (x_bind _ _ (fun _ => edge)); [|intros ?u0; apply x_ret; intros w1 sn1 d1 H1; now split]. apply e_ok. unfold t_rewards. apply k_bind; [apply k_ommers|]. intros miner. now apply k_cmd.
    Qed.
  End Block.

  (** The only step at which the two machines differ. *)
  Lemma lenient {A} (t : script A) c : forall y a ops y', arun_s t y = Some (a, ops, y') ->
    arun_script keccak elements c t y = Some (a, ops, y')
    \/ exists pre x rest vs w1 sn1, ops = pre ++ OCreate x :: rest /\ arun keccak cs y pre = Some (vs, (w1, sn1)) /\ c x = true /\ w_gone w1 x = true /\ w_exists w1 x = true.
  Proof.
    assert (St : forall y o v y', astep keccak cs y o = Some (v, y') -> astep keccak c y o = Some (v, y') \/ exists x, o = OCreate x /\ c x = true /\ w_gone (fst y) x = true /\ w_exists (fst y) x = true).
    { intros [w sn] o v y' E. destruct o; auto. cbn [astep andb] in *. destruct (c a && w_gone w a && w_exists w a) eqn:Ec; [right|auto]. apply andb_prop in Ec as [Ec E3]. apply andb_prop in Ec as [E1 E2]. eauto. }
    assert (Go : forall y o v y1 ops, astep keccak cs y o = Some (v, y1) ->
      (exists pre x rest vs w1 sn1, ops = pre ++ OCreate x :: rest /\ arun keccak cs y1 pre = Some (vs, (w1, sn1)) /\ c x = true /\ w_gone w1 x = true /\ w_exists w1 x = true) ->
      exists pre x rest vs w1 sn1, o :: ops = pre ++ OCreate x :: rest /\ arun keccak cs y pre = Some (vs, (w1, sn1)) /\ c x = true /\ w_gone w1 x = true /\ w_exists w1 x = true).
    { intros y o v y1 ops E (pre & x & rest & vs & w1 & sn1 & -> & E1 & H). exists (o :: pre), x, rest, (v :: vs), w1, sn1. split; [reflexivity|]. split; [|exact H]. cbn [arun]. now rewrite E, E1. }
    induction t as [a|o k IH|k IH|k IH]; intros y a' ops y'; cbn [arun_script]; [auto| | |].
    - destruct (astep keccak cs y o) as [[v y1]|] eqn:E; [|discriminate]. destruct (arun_s (k v) y1) as [[[a1 o1] y2]|] eqn:E1; [|discriminate]. intros [= <- <- <-].
      destruct (St _ _ _ _ E) as [->|(x & -> & H1 & H2 & H3)]; [|right; exists [], x, o1, [], (fst y), (snd y); destruct y; now repeat split].
      destruct (IH v _ _ _ _ E1) as [->|H]; [now left|]. right. now apply (Go y _ v y1).
    - destruct (astep keccak cs y _) as [[v y1]|] eqn:E; [|discriminate]. destruct (arun_s k y1) as [[[a1 o1] y2]|] eqn:E1; [|discriminate]. intros [= <- <- <-].
      destruct (St _ _ _ _ E) as [->|(x & Ex & _)]; [|discriminate].
      destruct (IH _ _ _ _ E1) as [->|H]; [now left|]. right. now apply (Go y _ v y1).
    - destruct (astep keccak cs y _) as [[v y1]|] eqn:E; [|discriminate]. destruct (arun_s k y1) as [[[a1 o1] y2]|] eqn:E1; [|discriminate]. intros [= <- <- <-].
      destruct (St _ _ _ _ E) as [->|(x & Ex & _)]; [|discriminate].
      destruct (IH _ _ _ _ E1) as [->|H]; [now left|]. right. now apply (Go y _ v y1).
  Qed.
End Defined.

Lemma defined keccak rev pre_gas pre_run block_hash interp strict fuel root config header ts ommers w : lawful strict interp -> (1024 <= fuel)%nat -> Forall (fits rev) ts -> coded w ->
  (exists rs v ops w', reference_block keccak rev pre_gas pre_run block_hash interp fuel root config header ts ommers w = Some (rs, v, ops, w'))
  \/ revives keccak rev pre_gas pre_run block_hash interp fuel root config header ts ommers w.
Proof.
  intros Hl Hf Hts Hc. destruct (e_block keccak rev pre_gas pre_run block_hash interp strict Hl fuel Hf header root config ts ommers w Hts Hc) as (rs & v & d & ops & w' & sn & E).
  destruct (lenient keccak _ (contract_in w) _ _ _ _ E) as [E2|(pre & x & rest & vs & w1 & sn1 & -> & E1 & H)].
  - left. exists rs, v, ops, w'. unfold reference_block. now rewrite E2.
  - right. exists (Some (rs, v), d), pre, x, rest, (w', sn), vs, w1, sn1. auto.
Qed.
