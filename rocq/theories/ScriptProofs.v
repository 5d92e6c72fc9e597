(** The execution of a block is the program of ScriptEvm. *)
From stdpp Require Import gmap.
From Coq Require Import ZArith.
From Verif Require Import Base RlpModel TxModel BlockModel TypesModel ChainModel StateModel StateSpec EvmModel ProcessorModel ScriptSpec ScriptEvm.

Section Same.
  Variable keccak : bytes -> bytes.
  Variable iterate : gset N -> list N.
  Variable db : db_reader.
  Notation cs := (crun_script keccak iterate db).

  Lemma cs_bind {A B} (t : script A) (f : A -> script B) : forall x, cs (bind_script t f) x = let '(a, x1) := cs t x in cs (f a) x1.
  Proof.
    induction t as [a|o k IH|k IH|k IH]; intros x; cbn [bind_script crun_script]; [reflexivity| |apply IH|apply IH].
    destruct (cstep keccak db x o) as [v x1]. apply IH.
  Qed.

  (** What a program may do to the snapshots: keep those there were; keep those up to number [i], which is [n]; anything. *)
  Inductive mode := Strong | At (i : nat) (n : snapshot) | Free.
  Definition ok (o : mode) (sn : list snapshot) : Prop := match o with At i n => nth_error sn i = Some n | _ => True end.
  Definition good (o : mode) (sn sn' : list snapshot) : Prop :=
    match o with Strong => exists ex, sn' = sn ++ ex | At i n => nth_error sn' i = Some n /\ firstn (S i) sn' = firstn (S i) sn | Free => True end.
  Lemma good_refl o sn : ok o sn -> good o sn sn.
  Proof. destruct o; cbn; auto. intros _. exists []. now rewrite app_nil_r. Qed.
  Lemma good_ok o sn sn' : good o sn sn' -> ok o sn'.
  Proof. destruct o; cbn; tauto. Qed.
  Lemma good_trans o a b c : good o a b -> good o b c -> good o a c.
  Proof. destruct o; cbn; auto. - intros (x & ->) (y & ->). exists (x ++ y). now rewrite app_assoc. - intros (_ & E) (H & E'). split; [exact H|congruence]. Qed.
  Lemma good_strong o sn sn' : ok o sn -> good Strong sn sn' -> good o sn sn'.
  Proof.
    destruct o as [|i n|]; cbn; auto. intros H (ex & ->). assert (Hi : (i < length sn)%nat) by (apply nth_error_Some; congruence).
    split; [now rewrite nth_error_app1|]. rewrite firstn_app. replace (S i - length sn)%nat with O by lia. cbn [firstn]. now rewrite app_nil_r.
  Qed.

  Definition impl {A} (o : mode) (p : prg A) (f : ibs -> A * ibs) : Prop :=
    forall s sn, ok o sn -> exists sn', cs (p (length sn)) (s, sn) = ((fst (f s), length sn'), (snd (f s), sn')) /\ good o sn sn'.
  Definition implo (o : mode) (p : prg answer) (f : ibs -> outcome) : Prop :=
    forall s sn, ok o sn -> match f s with
    | Returns r s' => exists sn', cs (p (length sn)) (s, sn) = ((AReturns r, length sn'), (s', sn')) /\ good o sn sn'
    | NoFuel => fst (fst (cs (p (length sn)) (s, sn))) = ANoFuel
    | Undefined => fst (fst (cs (p (length sn)) (s, sn))) = AUndefined
    end.
  (** Results that may be missing. *)
  Definition implx {A} (p : prg (option A)) (f : ibs -> option (A * ibs)) : Prop :=
    forall s sn, match f s with
    | Some (a, s') => exists sn', cs (p (length sn)) (s, sn) = ((Some a, length sn'), (s', sn'))
    | None => fst (fst (cs (p (length sn)) (s, sn))) = None
    end.

  Lemma impl_weak {A} o (p : prg A) f : impl Strong p f -> impl o p f.
  Proof. intros H s sn Ho. destruct (H s sn I) as (sn' & E & G). exists sn'. split; [exact E|now apply good_strong]. Qed.
  Lemma implo_weak o p f : implo Strong p f -> implo o p f.
  Proof. intros H s sn Ho. specialize (H s sn I). destruct (f s); auto. destruct H as (sn' & E & G). exists sn'. split; [exact E|now apply good_strong]. Qed.
  Lemma impl_ext {A} o (p : prg A) f g : impl o p f -> (forall s, g s = f s) -> impl o p g.
  Proof. intros H E s sn Ho. rewrite E. now apply H. Qed.
  Lemma implo_ext o p f g : implo o p f -> (forall s, g s = f s) -> implo o p g.
  Proof. intros H E s sn Ho. rewrite E. now apply H. Qed.
  Lemma impl_ret {A} o (a : A) : impl o (ret a) (fun s => (a, s)).
  Proof. intros s sn Ho. exists sn. split; [reflexivity|now apply good_refl]. Qed.
  Lemma implo_ret o r : implo o (ret (AReturns r)) (fun s => Returns r s).
  Proof. intros s sn Ho. exists sn. split; [reflexivity|now apply good_refl]. Qed.

  Lemma impl_let {A B} o (p : prg A) f (q : A -> prg B) g h :
    impl o p f -> (forall s, h s = let '(a, s1) := f s in g a s1) -> (forall a, impl o (q a) (g a)) -> impl o (bind p q) h.
  Proof.
    intros Hp E Hq s sn Ho. rewrite E. destruct (Hp s sn Ho) as (sn1 & E1 & G1). unfold bind. rewrite cs_bind, E1. destruct (f s) as [a s1]. cbn [fst snd].
    destruct (Hq a s1 sn1 (good_ok _ _ _ G1)) as (sn2 & E2 & G2). exists sn2. split; [exact E2|exact (good_trans _ _ _ _ G1 G2)].
  Qed.
  Lemma implo_let {A} o (p : prg A) f (q : A -> prg answer) g h :
    impl o p f -> (forall s, h s = let '(a, s1) := f s in g a s1) -> (forall a, implo o (q a) (g a)) -> implo o (bind p q) h.
  Proof.
    intros Hp E Hq s sn Ho. rewrite E. destruct (Hp s sn Ho) as (sn1 & E1 & G1). unfold bind. rewrite cs_bind, E1. destruct (f s) as [a s1]. cbn [fst snd].
    specialize (Hq a s1 sn1 (good_ok _ _ _ G1)). destruct (g a s1); auto. destruct Hq as (sn2 & E2 & G2). exists sn2. split; [exact E2|exact (good_trans _ _ _ _ G1 G2)].
  Qed.
  Lemma implo_bind o (p : prg answer) f (q : result -> prg answer) g h :
    implo o p f -> (forall s, h s = match f s with Returns r s1 => g r s1 | NoFuel => NoFuel | Undefined => Undefined end) -> (forall r, implo o (q r) (g r)) ->
    implo o (bind p (fun a => match a with AReturns r => q r | x => ret x end)) h.
  Proof.
    intros Hp E Hq s sn Ho. rewrite E. specialize (Hp s sn Ho). unfold bind. rewrite cs_bind. destruct (f s) as [r s1| |].
    - destruct Hp as (sn1 & E1 & G1). rewrite E1. specialize (Hq r s1 sn1 (good_ok _ _ _ G1)). destruct (g r s1); auto.
      destruct Hq as (sn2 & E2 & G2). exists sn2. split; [exact E2|exact (good_trans _ _ _ _ G1 G2)].
    - destruct (cs (p (length sn)) (s, sn)) as [[a d] x]. cbn in Hp. subst a. reflexivity.
    - destruct (cs (p (length sn)) (s, sn)) as [[a d] x]. cbn in Hp. subst a. reflexivity.
  Qed.
  (** commands *)
  Definition uni (f : ibs -> ibs) (s : ibs) : unit * ibs := (tt, f s).
  Lemma impl_then {B} o (p : prg unit) f (q : prg B) g h : impl o p (uni f) -> (forall s, h s = let s1 := f s in g s1) -> impl o q g -> impl o (bind p (fun _ => q)) h.
  Proof. intros Hp E Hq. eapply (impl_let o p (uni f) _ (fun _ => g)); [exact Hp|exact E|]. intros a. exact Hq. Qed.
  Lemma impl_seq {B} o (p : prg unit) f (q : prg B) g : impl o p (uni f) -> impl o q g -> impl o (bind p (fun _ => q)) (fun s => g (f s)).
  Proof. intros Hp Hq. eapply impl_then; [exact Hp| |exact Hq]. reflexivity. Qed.
  Lemma implo_then o (p : prg unit) f (q : prg answer) g h : impl o p (uni f) -> (forall s, h s = let s1 := f s in g s1) -> implo o q g -> implo o (bind p (fun _ => q)) h.
  Proof. intros Hp E Hq. eapply (implo_let o p (uni f) _ (fun _ => g)); [exact Hp|exact E|]. intros a. exact Hq. Qed.
  Lemma impl_when o (b : bool) (p : prg unit) f : impl o p (uni f) -> impl o (when b p) (uni (fun s => if b then f s else s)).
  Proof. intros H. destruct b; [exact H|]. intros s sn Ho. exists sn. split; [reflexivity|now apply good_refl]. Qed.
  Lemma impl_each {A} o (f : A -> prg unit) g l : (forall a, impl o (f a) (uni (fun s => g s a))) -> impl o (each f l) (uni (fun s => fold_left g l s)).
  Proof.
    intros H. induction l as [|a t IH]; cbn [each]; [exact (impl_ret o tt)|]. eapply impl_then; [exact (H a)| |exact IH]. reflexivity.
  Qed.

  (** *** The calls *)
  Ltac leaf := intros s sn Ho; exists sn; split; [|now apply good_refl]; cbn; repeat match goal with |- context [let '(_, _) := ?f in _] => destruct f eqn:? end; reflexivity.
  Lemma i_balance o a : impl o (num (OBalance a)) (fun s => get_balance db s a). Proof. leaf. Qed.
  Lemma i_nonce o a : impl o (num (ONonce a)) (fun s => get_nonce db s a). Proof. leaf. Qed.
  Lemma i_current o a k : impl o (num (OCurrent a k)) (fun s => get_current_storage db s a k). Proof. leaf. Qed.
  Lemma i_original o a k : impl o (num (OOriginal a k)) (fun s => get_original_storage db s a k). Proof. leaf. Qed.
  Lemma i_refund o : impl o (num ORefund) (fun s => (refund s, s)). Proof. leaf. Qed.
  Lemma i_suicides o : impl o (num OSuicides) (fun s => (N.of_nat (size (self_destructs s)), s)). Proof. leaf. Qed.
  Lemma i_dead o a : impl o (boo (OIsDead a)) (fun s => is_dead db s a). Proof. leaf. Qed.
  Lemma i_exists o a : impl o (boo (OExists a)) (fun s => exists_ db s a). Proof. leaf. Qed.
  Lemma i_access o a : impl o (boo (OAccessAccount a)) (fun s => access_account s a). Proof. leaf. Qed.
  Lemma i_access_key o a k : impl o (boo (OAccessStorage a k)) (fun s => access_storage s a k). Proof. leaf. Qed.
  Lemma i_code o a : impl o (byt (OCode a)) (fun s => get_code db s a). Proof. leaf. Qed.
  Lemma i_code_hash o a : impl o (byt (OCodeHash a)) (fun s => get_code_hash db s a). Proof. leaf. Qed.
  Lemma i_logs o : impl o (lgs OLogs) (fun s => (logs s, s)). Proof. leaf. Qed.
  Lemma c_create o a : impl o (cmd (OCreate a)) (uni (fun s => create_contract db s a)). Proof. leaf. Qed.
  Lemma c_set_balance o a v : impl o (cmd (OSetBalance a v)) (uni (fun s => set_balance db s a v)). Proof. leaf. Qed.
  Lemma c_add_balance o a v : impl o (cmd (OAddBalance a v)) (uni (fun s => add_to_balance db s a v)). Proof. leaf. Qed.
  Lemma c_sub_balance o a v : impl o (cmd (OSubBalance a v)) (uni (fun s => subtract_from_balance db s a v)). Proof. leaf. Qed.
  Lemma c_set_nonce o a v : impl o (cmd (OSetNonce a v)) (uni (fun s => set_nonce db s a v)). Proof. leaf. Qed.
  Lemma c_set_code o a c : impl o (cmd (OSetCode a c)) (uni (fun s => set_code keccak db s a c)). Proof. leaf. Qed.
  Lemma c_set_storage o a k v : impl o (cmd (OSetStorage a k v)) (uni (fun s => set_storage db s a k v)). Proof. leaf. Qed.
  Lemma c_touch o a : impl o (cmd (OTouch a)) (uni (fun s => touch s a)). Proof. leaf. Qed.
  Lemma c_suicide o a : impl o (cmd (OSuicide a)) (uni (fun s => record_suicide s a)). Proof. leaf. Qed.
  Lemma c_log o l : impl o (cmd (OAddLog l)) (uni (fun s => add_log s l)). Proof. leaf. Qed.
  Lemma c_add_refund o n : impl o (cmd (OAddRefund n)) (uni (fun s => add_refund s n)). Proof. leaf. Qed.
  Lemma c_sub_refund o n : impl o (cmd (OSubRefund n)) (uni (fun s => subtract_refund s n)). Proof. leaf. Qed.
  Lemma c_access o a : impl o (do _ <- boo (OAccessAccount a); ret tt) (uni (fun s => snd (access_account s a))).
  Proof. eapply impl_let; [apply i_access|intros s; unfold uni; now destruct (access_account s a)|]. intros b. apply impl_ret. Qed.
  Lemma c_access_key o a k : impl o (do _ <- boo (OAccessStorage a k); ret tt) (uni (fun s => snd (access_storage s a k))).
  Proof. eapply impl_let; [apply i_access_key|intros s; unfold uni; now destruct (access_storage s a k)|]. intros b. apply impl_ret. Qed.
  Lemma f_clear : impl Free (fin OClear) (uni clear_journal_and_substate).
  Proof. intros s sn _. exists []. split; [reflexivity|exact I]. Qed.
  Lemma f_finalize : impl Free (fin OFinalize) (uni finalize_transaction).
  Proof. intros s sn _. exists []. split; [reflexivity|exact I]. Qed.
  Lemma f_suicides : impl Free suicides (uni (fun s => destruct_suicides db s (iterate (self_destructs s)))).
  Proof. intros s sn _. exists []. split; [reflexivity|exact I]. Qed.
  Lemma f_touched : impl Free touched_dead (uni (fun s => destruct_touched_dead db s (iterate (touched s)))).
  Proof. intros s sn _. exists []. split; [reflexivity|exact I]. Qed.

  (** *** Snapshots *)
  Lemma implo_snap (q : nat -> prg answer) g h : (forall i n, implo (At i n) (q i) (g n)) -> (forall s, h s = g (take_snapshot s) s) -> implo Strong (bind snap q) h.
  Proof.
    intros Hq E s sn _. rewrite E. unfold bind, snap. cbn [bind_script crun_script cstep].
    assert (Hn : nth_error (sn ++ [take_snapshot s]) (length sn) = Some (take_snapshot s)) by (rewrite nth_error_app2, Nat.sub_diag by lia; reflexivity).
    specialize (Hq (length sn) (take_snapshot s) s (sn ++ [take_snapshot s]) Hn). rewrite app_length in Hq. cbn [length] in Hq. rewrite Nat.add_1_r in Hq.
    destruct (g (take_snapshot s) s); auto. destruct Hq as (sn' & E' & _ & G). exists sn'. split; [exact E'|]. cbn.
    rewrite (firstn_all2 (sn ++ _)) in G by (rewrite app_length; cbn; lia). exists (take_snapshot s :: skipn (S (length sn)) sn'). rewrite <- (firstn_skipn (S (length sn)) sn') at 1. rewrite G, <- app_assoc. reflexivity.
  Qed.
  Lemma implo_settle i n r : implo (At i n) (t_settle i r) (settle n r).
  Proof.
    unfold t_settle, settle. intros s sn Ho. destruct (is_success (r_status r)).
    - exists sn. split; [reflexivity|now apply good_refl].
    - cbn in Ho. unfold bind, back. cbn [bind_script crun_script cstep]. rewrite Ho. exists (firstn (S i) sn).
      assert (Hi : (i < length sn)%nat) by (apply nth_error_Some; congruence).
      split; [cbn [bind_script crun_script ret]; rewrite firstn_length_le by lia; reflexivity|]. cbn. rewrite firstn_firstn, Nat.min_id. split; [|reflexivity].
      rewrite <- Ho. clear - Hi. revert i Hi. induction sn as [|x t IH]; intros i Hi; [cbn in Hi; lia|]. destruct i as [|i]; [reflexivity|]. cbn [firstn nth_error]. apply IH. cbn in Hi. lia.
  Qed.

  (** *** The EVM *)
  Ltac ab := intros s; cbv beta zeta; match goal with |- ?l = ?g ?x => let l' := eval pattern x in l in match l' with ?F _ => unify g F end end; reflexivity.
  Ltac ab2 := intros s; cbv beta zeta; match goal with |- ?l = ?g (take_snapshot s) s =>
    let l1 := eval pattern (take_snapshot s) in l in match l1 with ?F _ => let l2 := eval pattern s in F in match l2 with ?G _ => unify g (fun n s => G s n) end end end; reflexivity.
  Section Evm.
    Variable rev : N.
    Variable pre_gas : N -> bytes -> N -> N.
    Variable pre_run : N -> bytes -> option bytes.
    Variable block_hash : N -> bytes.
    Variable interp : message -> bytes -> prog.

    Lemma i_account_exists o a : impl o (t_account_exists rev a) (fun s => host_account_exists db rev s a).
    Proof.
      unfold t_account_exists, host_account_exists. destruct (EVMC_SPURIOUS_DRAGON <=? rev); [|apply i_exists].
      eapply impl_let; [apply i_dead|intros s; reflexivity|]. intros d. apply impl_ret.
    Qed.
    Lemma i_access_account o a : impl o (t_access_account rev a) (fun s => host_access_account rev s a).
    Proof. unfold t_access_account, host_access_account. destruct (is_precompiled rev a); [apply impl_ret|apply i_access]. Qed.
    Lemma i_set_storage o a k v : impl o (t_set_storage rev a k v) (fun s => host_set_storage db rev s a k v).
    Proof.
      unfold t_set_storage, host_set_storage. eapply impl_let; [apply i_current|intros s; reflexivity|]. intros current. cbv beta.
      destruct (current =? v); [apply impl_ret|]. eapply impl_then; [apply c_set_storage|ab|]. cbv beta zeta.
      destruct (negb ((EVMC_ISTANBUL <=? rev) || (rev =? EVMC_CONSTANTINOPLE))).
      - destruct (current =? 0); [apply impl_ret|]. destruct (v =? 0); [|apply impl_ret]. eapply impl_then; [apply c_add_refund|ab|]. apply impl_ret.
      - eapply impl_let; [apply i_original|intros s; reflexivity|]. intros original. cbv beta.
        destruct (original =? current).
        + destruct (original =? 0); [apply impl_ret|]. eapply impl_then; [apply impl_when, c_add_refund| |apply impl_ret]. intros s. cbv zeta beta. now destruct (v =? 0).
        + eapply impl_ext; [apply impl_seq; [apply impl_when, c_sub_refund|]; apply impl_seq; [apply impl_when, c_add_refund|]; apply impl_seq; [apply impl_when, c_add_refund|apply impl_ret]|].
          intros s. cbv zeta beta. destruct (original =? 0), (current =? 0), (v =? 0), (original =? v); reflexivity.
    Qed.
    Lemma i_get_code_hash o a : impl o (t_get_code_hash a) (fun s => host_get_code_hash db s a).
    Proof. unfold t_get_code_hash, host_get_code_hash. eapply impl_let; [apply i_dead|intros s; reflexivity|]. intros d. cbv beta. destruct d; [apply impl_ret|apply i_code_hash]. Qed.
    Lemma i_copy_code o a off n : impl o (t_copy_code a off n) (fun s => host_copy_code db s a off n).
    Proof. unfold t_copy_code, host_copy_code. eapply impl_let; [apply i_code|intros s; reflexivity|]. intros c. apply impl_ret. Qed.
    Lemma c_selfdestruct o a b : impl o (t_selfdestruct a b) (uni (fun s => host_selfdestruct db s a b)).
    Proof.
      unfold t_selfdestruct, host_selfdestruct, uni. eapply impl_then; [apply c_suicide|ab|]. eapply (impl_let _ _ _ _ (fun v s => uni (fun s => set_balance db s a 0) (add_to_balance db s b v))); [apply i_balance| |intros v; apply impl_seq; [apply c_add_balance|apply c_set_balance]].
      intros s. cbv beta. unfold uni. destruct (get_balance db s a). reflexivity.
    Qed.

    Lemma t_run_ok o callf cf p : (forall m, implo Strong (callf m) (cf m)) -> implo o (t_run rev block_hash callf p) (fun s => run db rev block_hash cf p s).
    Proof.
      intros Hc. induction p; cbn [t_run run].
      - apply implo_ret.
      - eapply implo_let; [apply i_account_exists|intros s; reflexivity|]. intros b. apply H.
      - eapply implo_let; [apply i_current|intros s; reflexivity|]. intros b. apply H.
      - eapply implo_let; [apply i_set_storage|intros s; reflexivity|]. intros b. apply H.
      - eapply implo_let; [apply i_balance|intros s; reflexivity|]. intros b. apply H.
      - eapply implo_let; [apply i_code|intros s; reflexivity|]. intros b. apply H.
      - eapply implo_let; [apply i_get_code_hash|intros s; reflexivity|]. intros b. apply H.
      - eapply implo_let; [apply i_copy_code|intros s; reflexivity|]. intros b. apply H.
      - eapply implo_then; [apply c_selfdestruct|ab|]. exact IHp.
      - eapply implo_bind; [apply implo_weak, Hc|intros s; reflexivity|]. intros r. apply H.
      - apply H.
      - eapply implo_then; [apply c_log|ab|]. exact IHp.
      - eapply implo_let; [apply i_access_account|intros s; reflexivity|]. intros b. apply H.
      - eapply implo_let; [apply i_access_key|intros s; reflexivity|]. intros b. apply H.
    Qed.

    Section Body.
      Variable trec : list N -> message -> prg answer.
      Variable rec : list N -> message -> ibs -> outcome.
      Hypothesis Hrec : forall stack m, implo Strong (trec stack m) (rec stack m).
      Lemma t_execute_ok o stack m code : implo o (t_execute rev block_hash interp trec stack m code) (execute db rev block_hash interp rec stack m code).
      Proof. unfold t_execute, execute. apply t_run_ok. intros m'. apply Hrec. Qed.
      Lemma t_deploy_ok o c r : impl o (t_deploy rev c r) (fun s => deploy keccak db rev c r s).
      Proof.
        unfold t_deploy, deploy. destruct (is_success (r_status r)); [|apply impl_ret]. cbv zeta. destruct (_ && _); [apply impl_ret|]. destruct (_ && _); [apply impl_ret|].
        destruct (_ && _); [|destruct (_ <=? _); apply impl_ret]. eapply impl_then; [apply c_set_code|ab|]. apply impl_ret.
      Qed.
      Lemma t_create_ok stack m : implo Strong (t_create keccak rev block_hash interp trec stack m) (create keccak db rev block_hash interp rec stack m).
      Proof.
        unfold t_create, create. eapply implo_let; [apply i_balance|intros s; reflexivity|]. intros balance. cbv beta. destruct (balance <? m_value m); [apply implo_ret|].
        eapply implo_let; [apply i_nonce|intros s; reflexivity|]. intros nonce. cbv beta. eapply implo_then; [apply c_set_nonce|ab|]. cbv zeta.
        set (contract := match m_kind m with KCreate2 => _ | _ => _ end). eapply implo_let; [apply i_access|intros s; reflexivity|]. intros ?u. cbv beta.
        eapply implo_let; [apply i_nonce|intros s; reflexivity|]. intros cn. cbv beta.
        eapply (implo_let _ _ (fun s => if negb (cn =? 0) then (kEmptyHash, s) else get_code_hash db s contract)); [destruct (negb (cn =? 0)); [apply impl_ret|apply i_code_hash]|intros s; reflexivity|].
        intros ch. cbv beta. destruct (_ || _); [apply implo_ret|]. eapply implo_snap; [|ab2].
        intros i n. cbv beta. eapply implo_then; [apply c_create|ab|]. eapply implo_then; [apply impl_when, c_set_nonce|ab|]. eapply implo_then; [apply c_sub_balance|ab|]. eapply implo_then; [apply c_add_balance|ab|].
        eapply implo_bind; [apply t_execute_ok|intros s; reflexivity|]. intros r. cbv beta. eapply implo_let; [apply t_deploy_ok|intros s; reflexivity|]. intros r'. cbv beta. apply implo_settle.
      Qed.
      Lemma t_call_ok stack m : implo Strong (t_call rev pre_gas pre_run block_hash interp trec stack m) (call db rev pre_gas pre_run block_hash interp rec stack m).
      Proof.
        unfold t_call, call.
        eapply (implo_let _ _ (fun s => match m_kind m with KDelegatecall => (false, s) | _ => let '(balance, s) := get_balance db s (m_sender m) in (balance <? m_value m, s) end)); [|intros s; reflexivity|].
        { destruct (m_kind m); try apply impl_ret; (eapply impl_let; [apply i_balance|intros s; reflexivity|]; intros b; apply impl_ret). }
        intros poor. cbv beta. destruct poor; [apply implo_ret|]. destruct (recipient_of stack m) as [recipient|]; [|intros s sn Ho; reflexivity]. cbv zeta.
        eapply (implo_let _ _ (fun s => if (m_value m =? 0) && (EVMC_SPURIOUS_DRAGON <=? rev) && negb (is_precompiled rev (m_destination m)) then let '(e, s) := exists_ db s (m_destination m) in (negb e, s) else (false, s))); [|intros s; reflexivity|].
        { destruct (_ && _); [|apply impl_ret]. eapply impl_let; [apply i_exists|intros s; reflexivity|]. intros e. apply impl_ret. }
        intros skip. cbv beta. destruct skip; [apply implo_ret|].
        eapply implo_snap; [|ab2].
        intros i n. cbv beta.
        eapply (implo_then _ _ (fun s => match m_kind m with KCall => if m_static m then touch s recipient else add_to_balance db (subtract_from_balance db s (m_sender m) (m_value m)) recipient (m_value m) | _ => s end)); [|ab|].
        { destruct (m_kind m); try apply impl_ret. destruct (m_static m); [apply c_touch|]. apply (impl_seq _ _ _ _ (uni (fun s => add_to_balance db s recipient (m_value m)))); [apply c_sub_balance|apply c_add_balance]. }
        destruct (is_precompiled rev (m_destination m)); [apply implo_settle|]. eapply implo_let; [apply i_code|intros s; reflexivity|]. intros code. cbv beta. destruct code as [|c0 code]; [apply implo_ret|].
        eapply implo_let; [apply i_code_hash|intros s; reflexivity|]. intros ?u. cbv beta. eapply implo_bind; [apply t_execute_ok|intros s; reflexivity|]. intros r. apply implo_settle.
      Qed.
      Lemma t_body_ok stack m : implo Strong (t_host_call_body keccak rev pre_gas pre_run block_hash interp trec stack m) (host_call_body keccak db rev pre_gas pre_run block_hash interp rec stack m).
      Proof.
        unfold t_host_call_body, host_call_body. destruct (m_kind m); try apply t_call_ok; (eapply implo_bind; [apply t_create_ok|intros s; reflexivity|]; intros r; apply implo_ret).
      Qed.
    End Body.
    Lemma t_host_call_ok fuel : forall stack m, implo Strong (t_host_call keccak rev pre_gas pre_run block_hash interp fuel stack m) (host_call keccak db rev pre_gas pre_run block_hash interp fuel stack m).
    Proof. induction fuel as [|fuel IH]; intros stack m; cbn [t_host_call host_call]; [intros s sn Ho; reflexivity|]. now apply t_body_ok. Qed.
    Lemma t_txn_ok fuel to from gas data value : implo Strong (t_execute_txn keccak rev pre_gas pre_run block_hash interp fuel to from gas data value)
      (execute_txn keccak db rev pre_gas pre_run block_hash interp fuel to from gas data value).
    Proof. unfold t_execute_txn, execute_txn. destruct to; [apply t_call_ok|apply t_create_ok]; intros stack m; apply t_host_call_ok. Qed.
  End Evm.

  (** *** The processor *)
  Lemma implx_let {A B} (p : prg A) f (q : A -> prg (option B)) g h :
    impl Free p f -> (forall s, h s = let '(a, s1) := f s in g a s1) -> (forall a, implx (q a) (g a)) -> implx (bind p q) h.
  Proof.
    intros Hp E Hq s sn. rewrite E. destruct (Hp s sn I) as (sn1 & E1 & _). unfold bind. rewrite cs_bind, E1. destruct (f s) as [a s1]. cbn [fst snd]. exact (Hq a s1 sn1).
  Qed.
  Lemma implx_then {B} (p : prg unit) f (q : prg (option B)) g h : impl Free p (uni f) -> (forall s, h s = let s1 := f s in g s1) -> implx q g -> implx (bind p (fun _ => q)) h.
  Proof. intros Hp E Hq. eapply (implx_let p (uni f) _ (fun _ => g)); [exact Hp|exact E|]. intros a. exact Hq. Qed.
  Lemma implx_bind {A B} (p : prg (option A)) f (q : A -> prg (option B)) g h :
    implx p f -> (forall s, h s = match f s with Some (a, s1) => g a s1 | None => None end) -> (forall a, implx (q a) (g a)) ->
    implx (bind p (fun a => match a with Some a => q a | None => ret None end)) h.
  Proof.
    intros Hp E Hq s sn. rewrite E. specialize (Hp s sn). unfold bind. rewrite cs_bind. destruct (f s) as [[a s1]|].
    - destruct Hp as (sn1 & ->). exact (Hq a s1 sn1).
    - destruct (cs (p (length sn)) (s, sn)) as [[a d] x]. cbn in Hp. subst a. reflexivity.
  Qed.
  Lemma implx_outcome {B} (p : prg answer) f (q : result -> prg (option B)) g h :
    implo Free p f -> (forall s, h s = match f s with Returns r s1 => g r s1 | _ => None end) -> (forall r, implx (q r) (g r)) ->
    implx (bind p (fun a => match a with AReturns r => q r | _ => ret None end)) h.
  Proof.
    intros Hp E Hq s sn. rewrite E. specialize (Hp s sn I). unfold bind. rewrite cs_bind. destruct (f s) as [r s1| |].
    - destruct Hp as (sn1 & -> & _). exact (Hq r s1 sn1).
    - destruct (cs (p (length sn)) (s, sn)) as [[a d] x]. cbn in Hp. subst a. reflexivity.
    - destruct (cs (p (length sn)) (s, sn)) as [[a d] x]. cbn in Hp. subst a. reflexivity.
  Qed.
  Lemma implx_ret {A} (a : A) : implx (ret (Some a)) (fun s => Some (a, s)).
  Proof. intros s sn. exists sn. reflexivity. Qed.

  Section Processor.
    Variable rev : N.
    Variable pre_gas : N -> bytes -> N -> N.
    Variable pre_run : N -> bytes -> option bytes.
    Variable block_hash : N -> bytes.
    Variable interp : message -> bytes -> prog.
    Variable fuel : nat.
    Variable header : block_header.

    Lemma t_transfer_ok o : impl o t_transfer_balances (uni (fun s => transfer_balances db s)).
    Proof.
      unfold t_transfer_balances, transfer_balances. apply impl_each. intros a.
      eapply (impl_let _ _ _ _ (fun b s => uni (fun s => set_balance db (add_to_balance db s kWithdraw b) a 0) s)); [apply i_balance|intros s; unfold uni; now destruct (get_balance db s a)|].
      intros b. apply (impl_seq _ _ _ _ (uni (fun s => set_balance db s a 0))); [apply c_add_balance|apply c_set_balance].
    Qed.
    Lemma t_validate_ok o cumulative t : impl o (t_validate header cumulative t) (validate_transaction db header cumulative t).
    Proof.
      unfold t_validate, validate_transaction. destruct (tx_from t) as [from|]; [|apply impl_ret]. eapply impl_let; [apply i_nonce|intros s; reflexivity|]. intros nonce. cbv beta.
      destruct (negb _); [apply impl_ret|]. cbv zeta. eapply impl_let; [apply i_balance|intros s; reflexivity|]. intros b. cbv beta.
      destruct (b <? _); [apply impl_ret|]. destruct (_ <? _); apply impl_ret.
    Qed.
    Lemma t_warm_ok o l : impl o (each (fun e =>
      do _ <- boo (OAccessAccount (be_to_N (ale_account e)));
      each (fun k => do _ <- boo (OAccessStorage (be_to_N (ale_account e)) (be_to_N k)); ret tt) (ale_storage_keys e)) l)
      (uni (fun s => fold_left (fun s e =>
      let s := snd (access_account s (be_to_N (ale_account e))) in
      fold_left (fun s k => snd (access_storage s (be_to_N (ale_account e)) (be_to_N k))) (ale_storage_keys e) s) l s)).
    Proof.
      apply impl_each. intros e. eapply (impl_let _ _ _ _ (fun _ s => uni (fun s => fold_left (fun s k => snd (access_storage s (be_to_N (ale_account e)) (be_to_N k))) (ale_storage_keys e) s) s));
        [apply i_access|intros s; unfold uni; now destruct (access_account s _)|].
      intros ?u. apply impl_each. intros k. apply c_access_key.
    Qed.
    Lemma t_prepare_ok t : impl Free (t_prepare header t) (uni (fun s => prepare db header t s)).
    Proof.
      unfold t_prepare, prepare.
      set (tail := fun s => warm_access_list t (match tx_recipient t with Some to => set_nonce db (snd (access_account s to)) (tx_sender t) (add64 (tx_nonce t) 1) | None => s end)).
      eapply (impl_then _ _ _ _ (uni (fun s => tail (subtract_from_balance db (snd (access_account s (tx_sender t))) (tx_sender t) (mul256 (tx_gas_limit t) (effective_gas_price t (base_fee header)))))));
        [apply f_clear|intros s; reflexivity|].
      eapply (impl_let _ _ _ _ (fun _ s => uni (fun s => tail (subtract_from_balance db s (tx_sender t) (mul256 (tx_gas_limit t) (effective_gas_price t (base_fee header))))) s));
        [apply i_access|intros s; unfold uni, tail; now destruct (access_account s _)|].
      intros ?u. apply (impl_seq _ _ _ _ (uni tail)); [apply c_sub_balance|]. unfold tail.
      apply (impl_seq _ _ (fun s => match tx_recipient t with Some to => set_nonce db (snd (access_account s to)) (tx_sender t) (add64 (tx_nonce t) 1) | None => s end) _ (uni (warm_access_list t))).
      - destruct (tx_recipient t) as [to|]; [|apply impl_ret].
        eapply (impl_let _ _ _ _ (fun _ s => uni (fun s => set_nonce db s (tx_sender t) (add64 (tx_nonce t) 1)) s)); [apply i_access|intros s; unfold uni; now destruct (access_account s _)|].
        intros ?u. apply c_set_nonce.
      - apply t_warm_ok.
    Qed.
    Lemma t_refund_ok o t gas_left : impl o (t_refund rev header t gas_left) (refund_gas db rev header t gas_left).
    Proof.
      unfold t_refund, refund_gas. cbv zeta.
      eapply (impl_let _ _ (fun s => (if rev <? EVMC_LONDON then add64 (refund s) (mul64 kRSelfDestruct (N.of_nat (size (self_destructs s)))) else refund s, s)) _
        (fun counter s => let gas_left := add64 gas_left (N.min counter (sub64 (tx_gas_limit t) gas_left / (if EVMC_LONDON <=? rev then kMaxRefundQuotientLondon else kMaxRefundQuotientFrontier))) in
          (gas_left, add_to_balance db s (tx_sender t) (mul256 gas_left (effective_gas_price t (base_fee header)))))); [|intros s; reflexivity|].
      - destruct (rev <? EVMC_LONDON); [|apply i_refund]. eapply (impl_let _ _ _ _ (fun r s => (add64 r (mul64 kRSelfDestruct (N.of_nat (size (self_destructs s)))), s))); [apply i_refund|intros s; reflexivity|].
        intros r. eapply (impl_let _ _ _ _ (fun n s => (add64 r (mul64 kRSelfDestruct n), s))); [apply i_suicides|intros s; reflexivity|]. intros n. apply impl_ret.
      - intros counter. cbv zeta. eapply impl_then; [apply c_add_balance|ab|]. apply impl_ret.
    Qed.
    Notation execute_transaction := (execute_transaction keccak db rev pre_gas pre_run block_hash interp fuel iterate header).
    Notation t_transaction := (t_transaction keccak rev pre_gas pre_run block_hash interp fuel header).
    Lemma t_transaction_ok cumulative t : implx (t_transaction cumulative t) (execute_transaction cumulative t).
    Proof.
      unfold ScriptEvm.t_transaction, ProcessorModel.execute_transaction. cbv zeta. eapply implx_then; [apply t_prepare_ok|ab|]. cbv beta.
      eapply implx_outcome; [apply implo_weak, t_txn_ok|intros s; reflexivity|]. intros r. cbv beta.
      eapply implx_let; [apply t_refund_ok|intros s; reflexivity|]. intros gas_left. cbv beta.
      eapply implx_then; [apply c_add_balance|ab|]. eapply implx_then; [apply f_suicides|ab|].
      eapply implx_then; [apply impl_when, f_touched|ab|]. eapply implx_then; [apply f_finalize|ab|].
      eapply (implx_let _ _ _ (fun l s => Some (mkReceipt (tx_typ t) (is_success (r_status r)) (add64 cumulative (sub64 (tx_gas_limit t) gas_left)) (logs_bloom keccak l) l, add64 cumulative (sub64 (tx_gas_limit t) gas_left), s)));
        [apply i_logs|intros s; reflexivity|]. intros l. apply implx_ret.
    Qed.
    Lemma t_transactions_ok ts : forall cumulative, implx (t_transactions keccak rev pre_gas pre_run block_hash interp fuel header cumulative ts)
      (execute_transactions keccak db rev pre_gas pre_run block_hash interp fuel iterate header cumulative ts).
    Proof.
      induction ts as [|t ts IH]; intros cumulative; cbn [t_transactions execute_transactions]; [apply implx_ret|].
      eapply implx_let; [apply t_validate_ok|intros s; reflexivity|]. intros err. cbv beta. destruct err; try apply implx_ret.
      eapply (implx_bind _ _ (fun '(r, cumulative) => _) (fun '(r, cumulative) s => match execute_transactions keccak db rev pre_gas pre_run block_hash interp fuel iterate header cumulative ts s with
        | None => None | Some (rs, err, s) => Some (r :: rs, err, s) end)); [apply t_transaction_ok|intros s; now destruct (execute_transaction cumulative t s) as [[[r c] s1]|]|].
      intros [r c].
      intros s sn. specialize (IH c s sn). unfold bind. rewrite cs_bind. destruct (execute_transactions _ _ _ _ _ _ _ _ _ _ c ts s) as [[[rs err] s1]|].
      - destruct IH as (sn1 & ->). exists sn1. reflexivity.
      - destruct (cs _ (s, sn)) as [[a d] x]. cbn in IH. subst a. reflexivity.
    Qed.
    Lemma t_ommers_ok o ommers : forall miner, impl o (t_ommers rev header miner ommers) (fun s =>
      fold_left (fun '(miner, s) o =>
        let ommer_reward := mul256 (sub64 (add64 8 (hd_number o)) (hd_number header)) (block_reward rev) / 8 in
        (add256 miner (block_reward rev / 32), add_to_balance db s (be_to_N (hd_beneficiary o)) ommer_reward)) ommers (miner, s)).
    Proof.
      induction ommers as [|x t IH]; intros miner; cbn [t_ommers fold_left]; [apply impl_ret|]. cbv zeta. eapply impl_then; [apply c_add_balance| |apply IH]. reflexivity.
    Qed.
    Lemma t_rewards_ok o ommers : impl o (t_rewards rev header ommers) (uni (fun s => apply_rewards db rev header ommers s)).
    Proof.
      unfold t_rewards, apply_rewards. eapply (impl_let _ _ _ _ (fun miner => uni (fun s => add_to_balance db s (beneficiary header) miner))); [apply t_ommers_ok| |intros miner; apply c_add_balance].
      intros s. unfold uni. now destruct (fold_left _ ommers (block_reward rev, s)).
    Qed.

    (** The program of a block gives the receipts and the verdict of run_block, and leaves the state that run_block hands to the store. *)
    Lemma t_block_ok root config ts ommers :
      match run_block keccak db rev pre_gas pre_run block_hash interp fuel iterate root config header ts ommers with
      | Some (rs, v, kept) => exists s d x, cs (t_block keccak rev pre_gas pre_run block_hash interp fuel header root config ts ommers) (ibs_new, []) = ((Some (rs, v), d), (s, x)) /\ kept = match v with kOk => Some s | _ => None end
      | None => fst (fst (cs (t_block keccak rev pre_gas pre_run block_hash interp fuel header root config ts ommers) (ibs_new, []))) = None
      end.
    Proof.
      set (X := cs (t_block keccak rev pre_gas pre_run block_hash interp fuel header root config ts ommers) (ibs_new, [])).
      unfold run_block, execute_block.
      set (s0 := match cfg_dao_block config with Some d => if hd_number header =? d then transfer_balances db ibs_new else ibs_new | None => ibs_new end).
      assert (E1 : X = X) by reflexivity. unfold X at 2 in E1. clearbody X. unfold t_block in E1. set (p := match cfg_dao_block config with Some d => when (hd_number header =? d) t_transfer_balances | None => ret tt end) in E1.
      assert (Hp : exists sn, cs (p O) (ibs_new, []) = ((tt, length sn), (s0, sn))).
      { unfold p, s0. destruct (cfg_dao_block config) as [d|]; [|now exists []].
        destruct (impl_when Free (hd_number header =? d) _ _ (t_transfer_ok Free) ibs_new [] I) as (sn & E & _). exists sn. exact E. }
      destruct Hp as (sn & Ep). unfold bind at 1 in E1. rewrite cs_bind, Ep in E1. cbv beta iota in E1. clear Ep. clearbody p. unfold bind at 1 in E1. rewrite cs_bind in E1.
      pose proof (t_transactions_ok ts 0 s0 sn) as Ht. destruct (execute_transactions _ _ _ _ _ _ _ _ _ _ 0 ts s0) as [[[rs err] s1]|].
      2: { destruct (cs _ (s0, sn)) as [[a d] x]. cbn in Ht. subst a. rewrite E1. reflexivity. }
      destruct Ht as (sn1 & Ht). rewrite Ht in E1. cbv beta iota in E1. destruct err; try (rewrite E1; do 3 eexists; split; [reflexivity|reflexivity]).
      unfold bind in E1. rewrite cs_bind in E1. destruct (t_rewards_ok Free ommers s1 sn1 I) as (sn2 & Hr & _). rewrite Hr in E1. cbn [uni fst snd ret crun_script] in E1. cbv beta iota zeta in E1. rewrite E1. cbv zeta.
      destruct (negb _); [do 3 eexists; split; reflexivity|]. destruct (_ && _); [do 3 eexists; split; reflexivity|]. destruct (negb _); do 3 eexists; split; reflexivity.
    Qed.
  End Processor.
End Same.
