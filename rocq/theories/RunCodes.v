(** Where code lies: what every block does with it on the reference machine. *)
From stdpp Require Import gmap.
From Coq Require Import ZArith.
From Verif Require Import Base RlpModel TxModel BlockModel TypesModel ChainModel StateModel StateSpec MemBufModel MemBufSpec EvmModel ProcessorModel ScriptSpec ScriptEvm RunSpec RunProofs RunWritable.

Section Codes.
  Variable keccak : bytes -> bytes.
  Variable iterate : gset N -> list N.
  Variable cs : N -> bool.
  Variable w0 : world.
  Notation arun_s := (arun_script keccak iterate cs).

  Record sound (w : world) : Prop := {
    i_code : forall a c0 c, w_acct w0 a = Some c0 -> w_acct w a = Some c -> w_born w a = true \/ ac_code c = ac_code c0 \/ ac_contract c = false /\ ac_code c = [];
    i_coded : coded w;
    i_born : forall a, w_born w a = true -> exists c, w_acct w a = Some c /\ ac_contract c = true
  }.
  Definition inv (B : N -> Prop) (sn0 : list world) (w : world) (sn : list world) (d : nat) : Prop :=
    d = length sn /\ (exists ex, sn = sn0 ++ ex) /\ (forall x, B x -> w_born w x = true) /\ sound w.
  Definition tri {A} (P : world -> list world -> nat -> Prop) (p : prg A) (Q : A -> world -> list world -> nat -> Prop) : Prop :=
    forall d w sn a d' ops w' sn', P w sn d -> arun_s (p d) (w, sn) = Some ((a, d'), ops, (w', sn')) -> Q a w' sn' d'.
  Definition okp {A} (p : prg A) : Prop := forall B sn0, tri (inv B sn0) p (fun _ => inv B sn0).

  Lemma x_bind {A B} P (p : prg A) (M : A -> world -> list world -> nat -> Prop) (q : A -> prg B) (Q : B -> world -> list world -> nat -> Prop) : tri P p M -> (forall a, tri (M a) (q a) Q) -> tri P (bind p q) Q.
  Proof.
    intros Hp Hq d w sn b d' ops w' sn' HP E. unfold bind in E. apply ar_bind in E as ([a d1] & o1 & [w1 sn1] & o2 & E1 & E2 & _).
    eapply Hq; [|exact E2]. eapply Hp; [exact HP|exact E1].
  Qed.
  Lemma x_ret {A} (P : world -> list world -> nat -> Prop) (a : A) : tri P (ret a) (fun _ => P).
  Proof. intros d w sn a' d' ops w' sn' HP. cbn. now intros [= <- <- <- <- <-]. Qed.
  Lemma k_bind {A B} (p : prg A) (q : A -> prg B) : okp p -> (forall a, okp (q a)) -> okp (bind p q).
  Proof. intros Hp Hq C sn0. eapply x_bind; [apply Hp|]. intros a. apply Hq. Qed.
  Lemma k_ret {A} (a : A) : okp (ret a).
  Proof. intros C sn0. apply x_ret. Qed.
  Lemma k_when b p : okp p -> okp (when b p).
  Proof. intros H. destruct b; [exact H|apply k_ret]. Qed.
  Lemma k_each {A} (f : A -> prg unit) l : (forall a, okp (f a)) -> okp (each f l).
  Proof. intros H. induction l as [|a t IH]; cbn [each]; [apply k_ret|]. apply k_bind; [apply H|]. intros ?u. exact IH. Qed.

  Definition plain (o : op) : bool :=
    match o with OSetCode _ _ | OSnapshot | ORevert _ | OFinalize | ODestruct _ | ODestructSuicides _ | ODestructTouchedDead _ | OClear => false | _ => true end.
  Lemma sound_modify w a f : sound w -> (forall c, ac_code (f c) = ac_code c /\ ac_contract (f c) = ac_contract c) -> sound (w_modify w a f).
  Proof.
    intros [I1 I2 I3] Hf. assert (K : forall c, w_acct (w_modify w a f) a = Some c -> c = f (w_get w a)). { intros c. cbn. unfold upd. rewrite N.eqb_refl. now intros [= <-]. }
    assert (G : ac_code (w_get w a) <> [] -> ac_contract (w_get w a) = true). { unfold w_get. destruct (w_acct w a) as [c|] eqn:E; [apply (I2 a c E)|now cbn]. }
    constructor.
    - intros x c0 c H0. destruct (N.eq_dec x a) as [->|Hx].
      + intros Hc. rewrite (K c Hc). destruct (Hf (w_get w a)) as [-> ->]. cbn [w_modify w_set_acct w_born]. unfold w_get. destruct (w_acct w a) as [c1|] eqn:E; [now apply (I1 a c0 c1)|]. right. right. now split.
      + cbn. unfold upd. rewrite (proj2 (N.eqb_neq x a) Hx). now apply I1.
    - intros x c. destruct (N.eq_dec x a) as [->|Hx].
      + intros Hc. rewrite (K c Hc). destruct (Hf (w_get w a)) as [-> ->]. exact G.
      + cbn. unfold upd. rewrite (proj2 (N.eqb_neq x a) Hx). apply I2.
    - intros x Hb. cbn in Hb. destruct (I3 x Hb) as (c & Ec & Hc). cbn. unfold upd. destruct (N.eqb_spec x a) as [->|Hx]; [|eauto].
      eexists. split; [reflexivity|]. destruct (Hf (w_get w a)) as [_ ->]. unfold w_get. now rewrite Ec.
  Qed.
  Lemma sound_same w w' : (forall a, w_acct w' a = w_acct w a) -> (forall a, w_born w' a = w_born w a) -> sound w -> sound w'.
  Proof. intros Ha Hb [I1 I2 I3]. constructor; [intros a c0 c; rewrite Ha, Hb; apply I1|intros a c; rewrite Ha; apply I2|intros a; rewrite Ha, Hb; apply I3]. Qed.
  Lemma sound_create w a c f g h : sound w -> ac_code c = [] -> ac_contract c = true -> sound (w_set_gone (w_set_storage (w_set_acct w (upd (w_acct w) a (Some c))) f g) h (upd (w_born w) a true)).
  Proof.
    intros [I1 I2 I3] Hc Hk. constructor.
    - intros x c0 c1. cbn. unfold upd. destruct (N.eqb_spec x a) as [->|Hx]; [now left|apply I1].
    - intros x c1. cbn. unfold upd. destruct (N.eqb_spec x a) as [->|Hx]; [|apply I2]. now intros [= <-].
    - intros x. cbn. unfold upd. destruct (N.eqb_spec x a) as [->|Hx]; [eauto|apply I3].
  Qed.
  Lemma step_plain o w sn v w' sn' : plain o = true -> sound w -> astep keccak cs (w, sn) o = Some (v, (w', sn')) ->
    sn' = sn /\ sound w' /\ (forall x, w_born w x = true -> w_born w' x = true) /\ (forall a, o = OCreate a -> w_born w' a = true).
  Proof.
    intros K H E. destruct o; try discriminate; cbn [astep] in E;
      try (injection E as <- <- <-; split; [reflexivity|]; split; [|split; [now cbn|discriminate]]; try (now apply sound_modify); try (match goal with |- sound (w_touch ?x _) => apply (sound_same x); [reflexivity|reflexivity|now apply sound_modify] end); try exact H; now apply (sound_same w)).
    - destruct (_ && _); [discriminate|]. injection E as <- <- <-. split; [reflexivity|]. split; [now apply sound_create|]. split.
      + intros x. cbn. unfold upd. now destruct (x =? a).
      + intros a' [= <-]. cbn. unfold upd. now rewrite N.eqb_refl.
    - destruct (_ && _); [|discriminate]. injection E as <- <- <-. split; [reflexivity|]. split; [now apply (sound_same w)|]. split; [now cbn|discriminate].
  Qed.
  Lemma inv_plain o B sn0 w sn d v w' sn' : plain o = true -> inv B sn0 w sn d -> astep keccak cs (w, sn) o = Some (v, (w', sn')) -> inv B sn0 w' sn' d.
  Proof. intros K (H1 & H2 & H3 & H4) E. destruct (step_plain o w sn v w' sn' K H4 E) as (-> & Hs & Hm & _). split; [exact H1|]. split; [exact H2|]. split; [|exact Hs]. intros x Hx. apply Hm, H3, Hx. Qed.
  Ltac basic u := intros K B sn0 d w sn a d' ops w' sn' H; unfold u; cbn [arun_script]; match goal with |- context [astep keccak cs (w, sn) ?o] => destruct (astep keccak cs (w, sn) o) as [[v [w1 sn1]]|] eqn:E; [|discriminate]; intros [= <- <- <- <- <-]; now apply (inv_plain o B sn0 w sn d v) end.
  Lemma k_num o : plain o = true -> okp (num o). Proof. basic num. Qed.
  Lemma k_boo o : plain o = true -> okp (boo o). Proof. basic boo. Qed.
  Lemma k_byt o : plain o = true -> okp (byt o). Proof. basic byt. Qed.
  Lemma k_lgs o : plain o = true -> okp (lgs o). Proof. basic lgs. Qed.
  Lemma k_cmd o : plain o = true -> okp (cmd o). Proof. basic cmd. Qed.
  Lemma x_create c B sn0 : tri (inv B sn0) (cmd (OCreate c)) (fun _ => inv (fun x => B x \/ x = c) sn0).
  Proof.
    intros d w sn a d' ops w' sn' H. unfold cmd. cbn [arun_script]. destruct (astep keccak cs (w, sn) (OCreate c)) as [[v [w1 sn1]]|] eqn:E; [|discriminate]. intros [= <- <- <- <- <-].
    destruct H as (H1 & H2 & H3 & H4). destruct (step_plain (OCreate c) _ _ _ _ _ eq_refl H4 E) as (-> & Hs & Hm & Hc). split; [exact H1|]. split; [exact H2|]. split; [|exact Hs].
    intros x [Hx| ->]; [apply Hm, H3, Hx|now apply Hc].
  Qed.
  Lemma x_set_code c code (B : N -> Prop) sn0 : B c -> tri (inv B sn0) (cmd (OSetCode c code)) (fun _ => inv B sn0).
  Proof.
    intros Hc d w sn a d' ops w' sn' (H1 & H2 & H3 & [I1 I2 I3]). cbn. intros [= <- <- <- <- <-]. destruct (I3 c (H3 c Hc)) as (cc & Ec & Hk).
    split; [exact H1|]. split; [exact H2|]. split; [exact H3|]. constructor; cbn.
    - intros x c0 c1 Hx. unfold upd. destruct (N.eqb_spec x c) as [->|Hn]; [intros _; left; now apply H3|now apply I1].
    - intros x c1. cbn. unfold upd. destruct (N.eqb_spec x c) as [->|Hn]; [|apply I2]. intros [= <-] _. cbn. unfold w_get. now rewrite Ec.
    - intros x Hb. unfold upd. destruct (N.eqb_spec x c) as [->|Hn]; [|now apply I3]. eexists. split; [reflexivity|]. cbn. unfold w_get. now rewrite Ec.
  Qed.
  Lemma x_weak {A} (B B' : N -> Prop) sn0 (p : prg A) Q : (forall x, B' x -> B x) -> tri (inv B' sn0) p Q -> tri (inv B sn0) p Q.
  Proof. intros HB H d w sn a d' ops w' sn' (H1 & H2 & H3 & H4). apply H. split; [exact H1|]. split; [exact H2|]. split; [auto|exact H4]. Qed.
  (** From a snapshot on: either the snapshots and what was born stay, or all is as it was at the snapshot. *)
  Lemma x_snap {A} B sn0 (k : nat -> prg A) : (forall w sn, inv B sn0 w sn (length sn) -> tri (inv B (sn ++ [w])) (k (length sn)) (fun _ => inv B sn0)) -> tri (inv B sn0) (bind snap k) (fun _ => inv B sn0).
  Proof.
    intros H d w sn a d' ops w' sn' Hi. pose proof Hi as (H1 & H2 & H3 & H4). cbn. destruct (arun_s (k d (S d)) (w, sn ++ [w])) as [[[b o] y]|] eqn:E; [|discriminate]. intros [= -> <- ->].
    subst d. apply (H w sn Hi (S (length sn)) w (sn ++ [w]) a d' o w' sn'); [|exact E].
    split; [rewrite app_length; cbn; lia|]. split; [exists []; now rewrite app_nil_r|]. split; [exact H3|exact H4].
  Qed.
  Lemma inv_shrink B sn0 w sn w' sn' d : inv B sn0 w sn (length sn) -> inv B (sn ++ [w]) w' sn' d -> inv B sn0 w' sn' d.
  Proof. intros (_ & (e & ->) & _) (H1 & (e2 & ->) & H3 & H4). split; [exact H1|]. split; [|now split]. exists (e ++ [w] ++ e2). now rewrite <- !app_assoc. Qed.
  Lemma x_shrink {A} B sn0 w sn (p : prg A) : inv B sn0 w sn (length sn) -> tri (inv B (sn ++ [w])) p (fun _ => inv B (sn ++ [w])) -> tri (inv B (sn ++ [w])) p (fun _ => inv B sn0).
  Proof. intros Hi H d w1 sn1 a d' ops w' sn' H1 E. eapply inv_shrink; [exact Hi|]. exact (H d w1 sn1 a d' ops w' sn' H1 E). Qed.
  Lemma x_settle (B : N -> Prop) sn0 w sn (B' : N -> Prop) r : inv B sn0 w sn (length sn) -> (forall x, B x -> B' x) -> tri (inv B' (sn ++ [w])) (t_settle (length sn) r) (fun _ => inv B sn0).
  Proof.
    intros Hi HB. apply (x_weak _ B); [exact HB|]. unfold t_settle. destruct (is_success _); [apply x_shrink; [exact Hi|apply x_ret]|].
    intros d w1 sn1 a d' ops w' sn' (H1 & (e & ->) & H3 & H4). cbn. rewrite <- app_assoc, nth_error_app2, Nat.sub_diag by lia. cbn [nth_error app]. intros [= <- <- <- <- <-].
    destruct Hi as (_ & He & G3 & G4). replace (firstn (S (length sn)) (sn ++ w :: e)) with (sn ++ [w]).
    2: { change (w :: e) with ([w] ++ e). rewrite app_assoc. replace (S (length sn)) with (length (sn ++ [w])) by (rewrite app_length; cbn; lia). now rewrite firstn_app, Nat.sub_diag, firstn_all, firstn_O, app_nil_r. }
    split; [rewrite app_length; cbn; lia|]. split; [destruct He as (e0 & ->); exists (e0 ++ [w]); now rewrite app_assoc|]. split; [exact G3|]. now apply (sound_same w).
  Qed.

  Section Block.
    Variable rev : N.
    Variable pre_gas : N -> bytes -> N -> N.
    Variable pre_run : N -> bytes -> option bytes.
    Variable block_hash : N -> bytes.
    Variable interp : message -> bytes -> prog.
    Ltac one := first [apply k_ret | apply k_num; reflexivity | apply k_boo; reflexivity | apply k_byt; reflexivity | apply k_cmd; reflexivity | apply k_lgs; reflexivity | apply k_when | apply k_bind; [|intros ?u] | progress cbv zeta].
    Ltac all := repeat first [one | match goal with |- okp (if ?b then _ else _) => destruct b end].

    Lemma k_set_storage a key v : okp (t_set_storage rev a key v). Proof. unfold t_set_storage. all. Qed.
    Lemma k_run callf p : (forall m, okp (callf m)) -> okp (t_run rev block_hash callf p).
    Proof.
      intros H. induction p as [r|a k IH|a key k IH|a key v k IH|a k IH|a k IH|a k IH|a o n k IH|a b k IH|m k IH|n k IH|l k IH|a k IH|a key k IH]; cbn [t_run]; try (apply k_bind; [|intros ?u; try apply IH]).
      - apply k_ret.
      - unfold t_account_exists. all.
      - now apply k_num.
      - apply k_set_storage.
      - now apply k_num.
      - now apply k_byt.
      - unfold t_get_code_hash. all.
      - unfold t_copy_code. all.
      - unfold t_selfdestruct. all.
      - apply H.
      - destruct u as [r| |]; [apply IH|apply k_ret|apply k_ret].
      - apply IH.
      - now apply k_cmd.
      - unfold t_access_account. all.
      - now apply k_boo.
    Qed.
    Section Body.
      Variable rec : list N -> message -> prg answer.
      Hypothesis Hrec : forall st m, okp (rec st m).
      Lemma k_execute st m code : okp (t_execute rev block_hash interp rec st m code).
      Proof. apply k_run. intros m'. apply Hrec. Qed.
      Lemma k_create st m : okp (t_create keccak rev block_hash interp rec st m).
      Proof.
        unfold t_create. apply k_bind; [now apply k_num|]. intros bal. destruct (_ <? _); [apply k_ret|]. apply k_bind; [now apply k_num|]. intros nonce. apply k_bind; [now apply k_cmd|]. intros ?u.
        cbv zeta. set (contract := match m_kind m with KCreate2 => _ | _ => _ end). clearbody contract. apply k_bind; [now apply k_boo|]. intros ?u. apply k_bind; [now apply k_num|]. intros cn.
        apply k_bind; [all|]. intros ch. destruct (_ || _); [apply k_ret|]. intros B sn0. apply x_snap. intros w sn Hi.
        eapply x_bind; [apply x_create|]. intros ?u. cbv beta. eapply x_bind; [apply k_when; now apply k_cmd|]. intros ?u. cbv beta. eapply x_bind; [now apply k_cmd|]. intros ?u. cbv beta.
        eapply x_bind; [now apply k_cmd|]. intros ?u. cbv beta. eapply x_bind; [apply k_execute|]. intros [r| |]; cbv beta.
        2,3: apply (x_weak _ B); [auto|]; apply x_shrink; [exact Hi|apply x_ret].
        eapply (x_bind _ _ (fun _ => inv (fun x => B x \/ x = contract) (sn ++ [w]))).
        - unfold t_deploy. cbv zeta. destruct (is_success _); [|apply x_ret]. destruct (_ && _); [apply x_ret|]. destruct (_ && _); [apply x_ret|]. destruct (_ && _); [|destruct (_ <=? _); apply x_ret].
          eapply x_bind; [apply x_set_code; now right|]. intros ?u. apply x_ret.
        - intros r'. apply (x_settle B sn0 w sn); auto.
      Qed.
      Lemma k_call st m : okp (t_call rev pre_gas pre_run block_hash interp rec st m).
      Proof.
        unfold t_call. apply k_bind; [destruct (m_kind m); all|]. intros poor. destruct poor; [apply k_ret|]. destruct (recipient_of st m) as [recipient|]; [|apply k_ret]. cbv zeta.
        apply k_bind; [all|]. intros skip. destruct skip; [apply k_ret|]. intros B sn0. apply x_snap. intros w sn Hi.
        eapply (x_bind _ _ (fun _ => inv B (sn ++ [w]))).
        { destruct (m_kind m); try apply x_ret. destruct (m_static m); [now apply k_cmd|]. apply k_bind; [now apply k_cmd|]. intros ?u. now apply k_cmd. }
        intros ?u. cbv beta. destruct (is_precompiled _ _); [apply (x_settle B sn0 w sn); auto|]. eapply x_bind; [now apply k_byt|]. intros code. cbv beta. destruct code as [|b code]; [apply x_shrink; [exact Hi|apply x_ret]|].
        eapply x_bind; [now apply k_byt|]. intros ?u. cbv beta. eapply x_bind; [apply k_execute|]. intros [r| |]; cbv beta; [apply (x_settle B sn0 w sn); auto| |]; apply x_shrink; try exact Hi; apply x_ret.
      Qed.
      Lemma k_host_body st m : okp (t_host_call_body keccak rev pre_gas pre_run block_hash interp rec st m).
      Proof. unfold t_host_call_body. destruct (m_kind m); try apply k_call; (apply k_bind; [apply k_create|]; intros [r| |]; apply k_ret). Qed.
    End Body.
    Lemma k_host fuel : forall st m, okp (t_host_call keccak rev pre_gas pre_run block_hash interp fuel st m).
    Proof. induction fuel as [|n IH]; intros st m; cbn [t_host_call]; [apply k_ret|]. now apply k_host_body. Qed.
    Lemma k_txn fuel to from gas data value : okp (t_execute_txn keccak rev pre_gas pre_run block_hash interp fuel to from gas data value).
    Proof. unfold t_execute_txn. destruct to; [apply k_call|apply k_create]; intros st m; apply k_host. Qed.

    Variable fuel : nat.
    Variable header : block_header.
    (** Between transactions there are no snapshots. *)
    Definition edge := inv (fun _ => False) [].
    Lemma inv_edge B sn0 w sn : inv B sn0 w sn (length sn) -> sound w. Proof. intros (_ & _ & _ & H). exact H. Qed.
    Lemma sound_destruct w a : sound w -> sound (w_destruct w a).
    Proof.
      intros [I1 I2 I3]. constructor.
      - intros x c0 c. cbn. unfold upd. destruct (x =? a); [discriminate|apply I1].
      - intros x c. cbn. unfold upd. destruct (x =? a); [discriminate|apply I2].
      - intros x. cbn. unfold upd. destruct (x =? a); [discriminate|apply I3].
    Qed.
    Lemma edge_intro w : sound w -> edge w [] 0.
    Proof. intros H. split; [reflexivity|]. split; [now exists []|]. split; [tauto|exact H]. Qed.
    Lemma e_clear : tri edge (fin OClear) (fun _ => edge).
    Proof. intros d w sn a d' ops w' sn' (_ & _ & _ & H). cbn. intros [= <- <- <- <- <-]. apply edge_intro. now apply (sound_same w). Qed.
    Lemma e_finalize : tri edge (fin OFinalize) (fun _ => edge).
    Proof. intros d w sn a d' ops w' sn' (_ & _ & _ & H). cbn. intros [= <- <- <- <- <-]. apply edge_intro. now apply (sound_same w). Qed.
    Lemma e_suicides : tri edge suicides (fun _ => edge).
    Proof.
      intros d w sn a d' ops w' sn' (_ & _ & _ & H). cbn. destruct (bool_decide _); [|discriminate]. intros [= <- <- <- <- <-]. apply edge_intro. generalize (iterate (w_suicides w)). intros l. revert w H.
      induction l as [|x l IH]; intros w H; cbn [fold_left]; [exact H|]. now apply IH, sound_destruct.
    Qed.
    Lemma e_touched : tri edge touched_dead (fun _ => edge).
    Proof.
      intros d w sn a d' ops w' sn' (_ & _ & _ & H). cbn. destruct (bool_decide _); [|discriminate]. intros [= <- <- <- <- <-]. apply edge_intro. generalize (iterate (w_touched w)). intros l. revert w H.
      induction l as [|x l IH]; intros w H; cbn [fold_left]; [exact H|]. apply IH. destruct (w_dead w x); [now apply sound_destruct|exact H].
    Qed.
    Lemma e_ok {A} (p : prg A) : okp p -> tri edge p (fun _ => edge). Proof. intros H. apply H. Qed.
    Lemma e_prepare t : tri edge (t_prepare header t) (fun _ => edge).
    Proof.
      unfold t_prepare. eapply x_bind; [apply e_clear|]. intros ?u. apply e_ok. apply k_bind; [now apply k_boo|]. intros ?u0. apply k_bind; [now apply k_cmd|]. intros ?u0.
      apply k_bind; [destruct (tx_recipient t); all|]. intros ?u0. apply k_each. intros e. apply k_bind; [now apply k_boo|]. intros ?u0. apply k_each. intros k. all.
    Qed.
    Lemma e_transaction cumulative t : tri edge (t_transaction keccak rev pre_gas pre_run block_hash interp fuel header cumulative t) (fun _ => edge).
    Proof.
      unfold t_transaction. eapply x_bind; [apply e_prepare|]. intros ?u. cbv beta zeta. eapply x_bind; [apply e_ok, k_txn|]. intros [r| |]; cbv beta; [|apply x_ret|apply x_ret].
      eapply x_bind; [apply e_ok; unfold t_refund; all|]. intros gas_left. cbv beta. eapply x_bind; [apply e_ok; now apply k_cmd|]. intros ?u. cbv beta. eapply x_bind; [apply e_suicides|]. intros ?u. cbv beta.
      eapply (x_bind _ _ (fun _ => edge)); [destruct (_ <=? _); [apply e_touched|apply x_ret]|]. intros ?u. cbv beta. eapply x_bind; [apply e_finalize|]. intros ?u. cbv beta. apply e_ok. all.
    Qed.
    Lemma k_validate cumulative t : okp (t_validate header cumulative t).
    Proof. unfold t_validate. destruct (tx_from t); all. Qed.
    Lemma e_transactions ts : forall cumulative, tri edge (t_transactions keccak rev pre_gas pre_run block_hash interp fuel header cumulative ts) (fun _ => edge).
    Proof.
      induction ts as [|t ts IH]; intros cumulative; cbn [t_transactions]; [apply x_ret|]. eapply x_bind; [apply e_ok, k_validate|]. intros err. cbv beta. destruct err; try apply x_ret.
      eapply x_bind; [apply e_transaction|]. intros [[r c]|]; cbv beta; [|apply x_ret]. eapply x_bind; [apply IH|]. intros rest. apply x_ret.
    Qed.
    Lemma k_ommers ommers : forall miner, okp (t_ommers rev header miner ommers).
    Proof. induction ommers as [|o t IH]; intros miner; cbn [t_ommers]; [apply k_ret|]. apply k_bind; [now apply k_cmd|]. intros ?u. apply IH. Qed.
    Lemma e_block root config ts ommers w r d ops w' sn : sound w ->
      arun_s (t_block keccak rev pre_gas pre_run block_hash interp fuel header root config ts ommers) (w, []) = Some ((r, d), ops, (w', sn)) -> sound w'.
    Proof.
      intros H E. unfold t_block in E. match type of E with arun_s (?p 0%nat) _ = _ => assert (G : tri edge p (fun _ => edge)) end.
      2: { destruct (G O w [] r d ops w' sn (edge_intro w H) E) as (_ & _ & _ & R). exact R. }
      clear E. eapply (x_bind _ _ (fun _ => edge)).
      - destruct (cfg_dao_block config); [|apply x_ret]. apply e_ok, k_when. unfold t_transfer_balances. apply k_each. intros a. all.
      - intros ?u. cbv beta. eapply x_bind; [apply e_transactions|]. intros [[rs err]|]; cbv beta; [|apply x_ret]. destruct err; try apply x_ret.
        eapply (x_bind _ _ (fun _ => edge)); [|intros ?u0; apply x_ret]. apply e_ok. unfold t_rewards. apply k_bind; [apply k_ommers|]. intros miner. now apply k_cmd.
    Qed.
  End Block.
End Codes.

Section Writable.
  Variables keccak code_of : bytes -> bytes.
  Variable rev : N.
  Variable pre_gas : N -> bytes -> N -> N.
  Variable pre_run : N -> bytes -> option bytes.
  Variable block_hash : N -> bytes.
  Variable interp : message -> bytes -> prog.
  Variable fuel : nat.
  Variable root : list receipt -> bytes.
  Variable config : chain_config.
  Variable header : block_header.
  Variable ts : list transaction.
  Variable ommers : list block_header.
  Notation reference := (reference_block keccak rev pre_gas pre_run block_hash interp fuel root config header ts ommers).
  (** Every block leaves a world that can be written back, but for the two cases of forgotten incarnations. *)
  Lemma always_writable past db w rs v ops w' : starts code_of db w -> coded w -> reference w = Some (rs, v, ops, w') -> incarnations_kept past w w' -> block_ok past w w' /\ coded (next_world w').
  Proof.
    intros Hs Hc E Hk. pose proof Hs as (S1 & S2 & S3 & S4 & S5 & _).
    assert (C : committed w') by exact (c_block keccak elements (contract_in w) rev pre_gas pre_run block_hash interp fuel header root config ts ommers w rs v ops w' S3 E eq_refl eq_refl).
    unfold reference_block in E. destruct (arun_script _ _ _ _ _) as [[[[[[rs0 v0]|] d] ops0] [wr snr]]|] eqn:Er; try discriminate. injection E as -> -> -> ->.
    destruct (e_block keccak elements (contract_in w) w rev pre_gas pre_run block_hash interp fuel header root config ts ommers w _ _ _ _ _ ltac:(constructor; [intros a c0 c -> [= <-]; auto|exact Hc|intros a; now rewrite S5]) Er) as [I1 I2 I3].
    split; [|exact I2]. split; [|exact Hk]. split; [exact C|]. intros a c0 c H0 H1. destruct (I1 a c0 c H0 H1) as [H|[H|[H2 H3]]]; [now left|now right|right].
    rewrite H3. destruct (ac_code c0) eqn:E0; [reflexivity|]. destruct Hk as [Hk _]. specialize (Hk a). unfold contract_in, w_exists in Hk. rewrite H0, H1 in Hk. rewrite H2 in Hk. now discriminate Hk; [apply (Hc a c0 H0); rewrite E0|].
  Qed.
  (** Execution over a buffer, then write-back. *)
  Lemma executed_and_written room m past iterate w rs ops w' : mem_ok keccak code_of room m past w -> coded w -> N.of_nat (length ops) <= room -> codes_ok keccak code_of ops -> visits iterate ->
    reference w = Some (rs, kOk, ops, w') -> incarnations_kept past w w' ->
    exists s, run_block keccak (mem_reader m) rev pre_gas pre_run block_hash interp fuel iterate root config header ts ommers = Some (rs, kOk, Some s)
      /\ coded (next_world w') /\ forall n sord oord, order_ok s sord oord ->
      mem_ok keccak code_of (room - N.of_nat (length ops)) (write_to_db s m n sord oord) (next_past past w w') (next_world w').
  Proof.
    intros Hm Hc Hl Hcd Hit E Hk. destruct (always_writable past (mem_reader m) w rs kOk ops w' (mo_starts _ _ _ _ _ _ Hm) Hc E Hk) as [Hb Hn].
    destruct (run_step keccak code_of rev pre_gas pre_run block_hash interp fuel root config header ts ommers room m past iterate w rs ops w' Hm Hl Hcd Hit E Hb) as (s & Er & H).
    exists s. split; [exact Er|]. split; [exact Hn|]. intros n sord oord Ho. exact (proj1 (H n sord oord Ho)).
  Qed.
End Writable.
