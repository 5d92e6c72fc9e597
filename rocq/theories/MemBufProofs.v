(** Writing blocks back to a MemoryBuffer and unwinding them. *)
From stdpp Require Import gmap.
From Verif Require Import Base BaseFacts RlpModel TypesModel StateModel StateSpec StateProofs MemBufModel MemBufSpec.

(** ** The reference machine: accounts that are not contracts have no storage *)
Definition zs (w : world) : Prop := forall a, contract_in w a = false -> forall k, w_current w a k = 0 /\ w_original w a k = 0.

Lemma zs_modify w a f : (forall c, ac_contract (f c) = ac_contract c) -> zs w -> zs (w_modify w a f).
Proof.
  intros Hf Hz x Hx. specialize (Hz x). apply Hz. unfold contract_in, w_modify in *. cbn in Hx. unfold upd in Hx. destruct (N.eqb_spec x a) as [->|]; [|exact Hx].
  rewrite Hf in Hx. unfold w_get in Hx. destruct (w_acct w a); [exact Hx|reflexivity].
Qed.
Lemma zs_destruct w a : zs w -> zs (w_destruct w a).
Proof.
  intros Hz x Hx k. unfold contract_in in *. cbn in *. unfold upd in *. destruct (N.eqb_spec x a) as [E|E]; [split; reflexivity|]. now apply Hz.
Qed.
Lemma zs_destruct_all l : forall w, zs w -> zs (fold_left w_destruct l w).
Proof. induction l as [|a t IH]; intros w Hz; [exact Hz|]. apply IH. now apply zs_destruct. Qed.
Lemma zs_destruct_dead l : forall w, zs w -> zs (fold_left (fun w a => if w_dead w a then w_destruct w a else w) l w).
Proof. induction l as [|a t IH]; intros w Hz; [exact Hz|]. cbn [fold_left]. apply IH. destruct (w_dead w a); [now apply zs_destruct|exact Hz]. Qed.

Lemma zs_step keccak cs w sn o v w' sn' : astep keccak cs (w, sn) o = Some (v, (w', sn')) -> zs w -> Forall zs sn -> zs w' /\ Forall zs sn'.
Proof.
  intros H Hz Hs.
  destruct o; cbn [astep] in H; try (injection H as <- <- <-; split; assumption).
  - destruct (_ && _ && _); [discriminate|]. injection H as <- <- <-. split; [|exact Hs]. intros x Hx k. unfold contract_in in Hx. cbn in *. unfold upd in *.
    destruct (N.eqb_spec x a) as [Exa|]; [split; reflexivity|]. now apply Hz.
  - injection H as <- <- <-. split; [|exact Hs]. apply (zs_modify w a (fun c => mkAcct (ac_nonce c) v0 (ac_code c) (ac_contract c)) ltac:(reflexivity) Hz).
  - injection H as <- <- <-. split; [|exact Hs]. apply (zs_modify w a (fun c => mkAcct (ac_nonce c) ((ac_balance c + v0) mod 2 ^ 256) (ac_code c) (ac_contract c)) ltac:(reflexivity) Hz).
  - injection H as <- <- <-. split; [|exact Hs]. apply (zs_modify w a (fun c => mkAcct (ac_nonce c) ((ac_balance c + 2 ^ 256 - v0) mod 2 ^ 256) (ac_code c) (ac_contract c)) ltac:(reflexivity) Hz).
  - injection H as <- <- <-. split; [|exact Hs]. apply (zs_modify w a (fun c => mkAcct n (ac_balance c) (ac_code c) (ac_contract c)) ltac:(reflexivity) Hz).
  - injection H as <- <- <-. split; [|exact Hs]. apply (zs_modify w a (fun c0 => mkAcct (ac_nonce c0) (ac_balance c0) c (ac_contract c0)) ltac:(reflexivity) Hz).
  - destruct (_ && _) eqn:Ew; [|discriminate]. injection H as <- <- <-. split; [|exact Hs]. intros x Hx j. unfold contract_in in Hx. cbn in *. unfold upd.
    destruct (N.eqb_spec x a) as [Exa|]; [|now apply Hz]. exfalso. subst x. apply andb_true_iff in Ew as [_ Ew]. unfold w_get in Ew. destruct (w_acct w a); [congruence|discriminate].
  - injection H as <- <- <-. split; [exact Hz|]. apply Forall_app. split; [exact Hs|]. constructor; [exact Hz|constructor].
  - destruct (nth_error sn i) as [saved|] eqn:En; [|discriminate]. injection H as <- <- <-. rewrite List.Forall_forall in Hs. split.
    + apply nth_error_In in En. exact (Hs _ En).
    + rewrite List.Forall_forall. intros x Hx. apply in_firstn in Hx. now apply Hs.
  - injection H as <- <- <-. split; [|constructor]. intros x Hx k. cbn in *. destruct (Hz x Hx k) as (H1 & _). now split.
  - injection H as <- <- <-. split; [|constructor]. now apply zs_destruct.
  - destruct (bool_decide _); [|discriminate]. injection H as <- <- <-. split; [|constructor]. now apply zs_destruct_all.
  - destruct (bool_decide _); [|discriminate]. injection H as <- <- <-. split; [|constructor]. now apply zs_destruct_dead.
  - injection H as <- <- <-. split; [exact Hz|constructor].
Qed.
Lemma zs_run keccak cs ops : forall w sn vs w' sn', arun keccak cs (w, sn) ops = Some (vs, (w', sn')) -> zs w -> Forall zs sn -> zs w'.
Proof.
  induction ops as [|o t IH]; intros w sn vs w' sn' H Hz Hs.
  - cbn in H. injection H as _ <- _. exact Hz.
  - cbn [arun] in H. destruct (astep keccak cs (w, sn) o) as [[v [w1 sn1]]|] eqn:E; [|discriminate]. destruct (arun keccak cs (w1, sn1) t) as [[vs1 [w2 sn2]]|] eqn:Et; [|discriminate].
    injection H as _ <- _. destruct (zs_step _ _ _ _ _ _ _ _ E Hz Hs) as (A & B). eapply IH; eassumption.
Qed.

Lemma astep_ext keccak cs cs' x o : (forall a, cs a = cs' a) -> astep keccak cs x o = astep keccak cs' x o.
Proof. intros H. destruct x, o; cbn [astep]; try reflexivity. now rewrite H. Qed.
Lemma arun_ext keccak cs cs' ops : (forall a, cs a = cs' a) -> forall x, arun keccak cs x ops = arun keccak cs' x ops.
Proof. intros H. induction ops as [|o t IH]; intros x; [reflexivity|]. cbn [arun]. rewrite (astep_ext keccak cs cs' x o H). destruct (astep keccak cs' x o) as [[v y]|]; [|reflexivity]. now rewrite IH. Qed.

(** ** The implementation: an account of the database with cached storage is cached too *)
Section Seen.
  Variable keccak : bytes -> bytes.
  Variable db : db_reader.
  Definition seen (s : ibs) (a : N) : Prop := read_account db a = None \/ is_Some (objects s !! a).
  Definition dseen (s : ibs) (d : delta) : Prop :=
    match d with
    | CreateDelta a => read_account db a = None
    | StorageWipeDelta a _ | StorageChangeDelta a _ _ => seen s a
    | _ => True
    end.
  Definition linv (s : ibs) : Prop := (forall a, is_Some (storages s !! a) -> seen s a) /\ Forall (dseen s) (journal s).
  Definition grows (s s' : ibs) : Prop := forall a, seen s a -> seen s' a.

  Lemma dseen_grows s s' d : grows s s' -> dseen s d -> dseen s' d.
  Proof. intros G. destruct d; cbn; auto. Qed.
  Lemma grows_same s s' : objects s' = objects s -> grows s s'.
  Proof. intros E a. unfold seen. now rewrite E. Qed.
  Lemma grows_insert s s' a o : objects s' = <[a := o]> (objects s) -> grows s s'.
  Proof. intros E x [H|H]; [now left|right]. rewrite E. destruct (decide (x = a)) as [->|N]; [rewrite lookup_insert; now eexists|]. now rewrite lookup_insert_ne by congruence. Qed.
  Lemma grows_trans a b c : grows a b -> grows b c -> grows a c.
  Proof. unfold grows. auto. Qed.
  Lemma linv_step s s' new : linv s -> grows s s' -> (forall a, is_Some (storages s' !! a) -> is_Some (storages s !! a) \/ seen s' a) ->
    journal s' = new ++ journal s -> Forall (dseen s') new -> linv s'.
  Proof.
    intros [L1 L2] G HS HJ HN. split.
    - intros a Ha. destruct (HS a Ha) as [H|H]; auto.
    - rewrite HJ. apply Forall_app. split; [exact HN|]. eapply List.Forall_impl; [|exact L2]. intros d. now apply dseen_grows.
  Qed.
  Lemma linv_same s s' : linv s -> objects s' = objects s -> storages s' = storages s -> journal s' = journal s -> linv s'.
  Proof. intros H E1 E2 E3. eapply (linv_step s s' []); [exact H|now apply grows_same|rewrite E2; auto|exact E3|constructor]. Qed.

  Lemma get_object_seen s a o s' : get_object db s a = (o, s') -> grows s s' /\ storages s' = storages s /\ journal s' = journal s
    /\ match o with Some o => objects s' !! a = Some o | None => read_account db a = None end.
  Proof.
    unfold get_object. destruct (objects s !! a) as [ob|] eqn:E.
    - intros [= <- <-]. split; [now apply grows_same|]. auto.
    - destruct (read_account db a) as [acc|] eqn:Er.
      + intros [= <- <-]. split; [eapply grows_insert; reflexivity|]. repeat split. cbn. apply lookup_insert.
      + intros [= <- <-]. split; [now apply grows_same|]. auto.
  Qed.
  Lemma get_object_linv s a o s' : linv s -> get_object db s a = (o, s') -> linv s'.
  Proof.
    intros H E. apply get_object_seen in E as (G & ES & EJ & _). eapply (linv_step s s' []); [exact H|exact G|rewrite ES; auto|exact EJ|constructor].
  Qed.
  Lemma get_or_create_linv s a o c s' : linv s -> get_or_create_object db s a = (o, c, s') -> linv s' /\ is_Some (objects s' !! a).
  Proof.
    intros H. unfold get_or_create_object. destruct (get_object db s a) as [p s1] eqn:E. pose proof (get_object_linv _ _ _ _ H E) as H1. apply get_object_seen in E as (_ & _ & _ & Ho).
    destruct p as [p|].
    - destruct (o_current p).
      + intros [= <- <- <-]. split; [exact H1|]. rewrite Ho. now eexists.
      + intros [= <- <- <-]. split; [|cbn; rewrite lookup_insert; now eexists].
        eapply (linv_step s1 _ [UpdateDelta a p]); [exact H1|eapply grows_insert; reflexivity|cbn; auto|reflexivity|repeat constructor].
    - intros [= <- <- <-]. split; [|cbn; rewrite lookup_insert; now eexists].
      eapply (linv_step s1 _ [CreateDelta a]); [exact H1|eapply grows_insert; reflexivity|cbn; auto|reflexivity|constructor; [exact Ho|constructor]].
  Qed.
  Lemma update_current_linv s a f : linv s -> linv (update_current db s a f).
  Proof.
    intros H. unfold update_current. destruct (get_or_create_object db s a) as [[o c] s1] eqn:E. destruct (get_or_create_linv _ _ _ _ _ H E) as (H1 & _).
    eapply (linv_step s1 _ [UpdateDelta a o]); [exact H1|eapply grows_insert; reflexivity|cbn; auto|reflexivity|repeat constructor].
  Qed.
  Lemma touch_linv s a : linv s -> linv (touch s a).
  Proof.
    intros H. unfold touch. destruct (_ && _).
    - eapply (linv_step s _ [TouchDelta a]); [exact H|now apply grows_same|cbn; auto|reflexivity|repeat constructor].
    - now apply linv_same with s.
  Qed.
  Lemma get_storage_linv s a k b v s' : linv s -> get_storage db s a k b = (v, s') -> linv s'.
  Proof.
    intros H. unfold get_storage. destruct (get_object db s a) as [p s1] eqn:E. pose proof (get_object_linv _ _ _ _ H E) as H1. apply get_object_seen in E as (_ & _ & _ & Ho).
    destruct p as [p|]; [|now intros [= _ <-]]. destruct (o_current p) as [c|]; [|now intros [= _ <-]].
    assert (S : forall st, linv (set_storages s1 (<[a := st]> (storages s1)))).
    { intros st. eapply (linv_step s1 _ []); [exact H1|now apply grows_same| |reflexivity|constructor]. cbn. intros x Hx. destruct (decide (x = a)) as [->|N].
      - right. right. cbn. rewrite Ho. now eexists.
      - left. now rewrite lookup_insert_ne in Hx by congruence. }
    destruct (if b then None else _); [intros [= _ <-]; apply S|]. destruct (st_committed _ !! k); [intros [= _ <-]; apply S|].
    destruct (match o_initial p with Some i => _ | None => true end); intros [= _ <-]; [apply S|]. cbn [storages set_storages]. rewrite insert_insert.
    change (set_storages (set_storages s1 ?x) ?y) with (set_storages s1 y). apply S.
  Qed.
  Lemma get_storage_current_seen s a k v s' : get_storage db s a k false = (v, s') -> v <> 0 \/ True -> seen s' a.
  Proof.
    intros H _. unfold get_storage in H. destruct (get_object db s a) as [p s1] eqn:E. apply get_object_seen in E as (_ & _ & _ & Ho). destruct p as [p|].
    - assert (S : forall st, seen (set_storages s1 st) a) by (intros st; right; cbn; rewrite Ho; now eexists).
      destruct (o_current p); [|injection H as _ <-; right; rewrite Ho; now eexists].
      destruct (st_current (storage_of s1 a) !! k); [injection H as _ <-; apply S|]. destruct (st_committed _ !! k); [injection H as _ <-; apply S|].
      destruct (match o_initial p with Some i => _ | None => true end); injection H as _ <-; [apply S|]. apply (S _).
    - left. exact Ho.
  Qed.
  Lemma set_storage_linv s a k v : linv s -> linv (set_storage db s a k v).
  Proof.
    intros H. unfold set_storage, get_current_storage. destruct (get_storage db s a k false) as [prev s1] eqn:E. pose proof (get_storage_linv _ _ _ _ _ _ H E) as H1.
    apply get_storage_current_seen in E; [|now right]. destruct (prev =? v); [exact H1|].
    eapply (linv_step s1 _ [StorageChangeDelta a k prev]); [exact H1|now apply grows_same| |reflexivity|].
    - cbn. intros x Hx. destruct (decide (x = a)) as [->|N]; [right; exact E|left; now rewrite lookup_insert_ne in Hx by congruence].
    - constructor; [exact E|constructor].
  Qed.
  Lemma create_linv s a : linv s -> linv (create_contract db s a).
  Proof.
    intros H. unfold create_contract. destruct (get_object db s a) as [p s1] eqn:E. pose proof (get_object_linv _ _ _ _ H E) as H1. apply get_object_seen in E as (_ & _ & _ & Ho).
    set (o' := mkObj _ _). set (s2 := match p with Some p => push s1 (UpdateDelta a p) | None => push s1 (CreateDelta a) end).
    assert (H2 : linv s2 /\ objects s2 = objects s1 /\ storages s2 = storages s1).
    { unfold s2. destruct p as [p|]; (split; [|split; reflexivity]).
      - eapply (linv_step s1 _ [UpdateDelta a p]); [exact H1|now apply grows_same|cbn; auto|reflexivity|repeat constructor].
      - eapply (linv_step s1 _ [CreateDelta a]); [exact H1|now apply grows_same|cbn; auto|reflexivity|constructor; [exact Ho|constructor]]. }
    destruct H2 as (H2 & E2 & E3). clearbody s2. set (s3 := set_objects s2 _).
    assert (H3 : linv s3) by (eapply (linv_step s2 _ []); [exact H2|eapply grows_insert; reflexivity|cbn; auto|reflexivity|constructor]).
    assert (S3 : seen s3 a) by (right; cbn; rewrite lookup_insert; now eexists).
    destruct (storages s3 !! a) as [st|].
    - eapply (linv_step s3 _ [StorageWipeDelta a st]); [exact H3|now apply grows_same| |reflexivity|constructor; [exact S3|constructor]].
      cbn. intros x Hx. left. destruct (decide (x = a)) as [->|N]; [rewrite lookup_delete in Hx; now destruct Hx|now rewrite lookup_delete_ne in Hx by congruence].
    - eapply (linv_step s3 _ [StorageCreateDelta a]); [exact H3|now apply grows_same|cbn; auto|reflexivity|repeat constructor].
  Qed.
  Lemma destruct_linv s a : linv s -> linv (destruct_ db s a).
  Proof.
    intros H. unfold destruct_. set (s0 := set_storages s _).
    assert (H0 : linv s0).
    { eapply (linv_step s _ []); [exact H|now apply grows_same| |reflexivity|constructor].
      cbn. intros x Hx. left. destruct (decide (x = a)) as [->|N]; [rewrite lookup_delete in Hx; now destruct Hx|now rewrite lookup_delete_ne in Hx by congruence]. }
    destruct (get_object db s0 a) as [p s1] eqn:E. pose proof (get_object_linv _ _ _ _ H0 E) as H1. destruct p as [p|]; [|exact H1].
    eapply (linv_step s1 _ []); [exact H1|eapply grows_insert; reflexivity|cbn; auto|reflexivity|constructor].
  Qed.
  (** Reverting: the remaining journal stays sound. *)
  Lemma revert_delta_linv s d : (forall a, is_Some (storages s !! a) -> seen s a) -> dseen s d ->
    (forall a, is_Some (storages (revert_delta s d) !! a) -> seen (revert_delta s d) a) /\ grows s (revert_delta s d).
  Proof.
    intros H Hd. destruct d; cbn [revert_delta dseen] in *; try (split; [exact H|now apply grows_same]).
    - assert (G : grows s (set_objects s (delete a (objects s)))).
      { intros x [Hx|Hx]; [now left|]. destruct (decide (x = a)) as [->|N]; [now left|right]. cbn. now rewrite lookup_delete_ne by congruence. }
      split; [|exact G]. intros x Hx. apply G. now apply H.
    - assert (G : grows s (set_objects s (<[a := previous]> (objects s)))) by (eapply grows_insert; reflexivity). split; [|exact G]. intros x Hx. apply G. now apply H.
    - split; [|now apply grows_same]. intros x Hx. cbn in Hx. destruct (decide (x = a)) as [->|N]; [exact Hd|]. apply H. now rewrite lookup_insert_ne in Hx by congruence.
    - split; [|now apply grows_same]. intros x Hx. cbn in Hx. destruct (decide (x = a)) as [->|N]; [exact Hd|]. apply H. now rewrite lookup_insert_ne in Hx by congruence.
    - split; [|now apply grows_same]. intros x Hx. cbn in Hx. destruct (decide (x = a)) as [->|N]; [rewrite lookup_delete in Hx; now destruct Hx|]. apply H. now rewrite lookup_delete_ne in Hx by congruence.
  Qed.
  Lemma revert_all_linv l : forall s, (forall a, is_Some (storages s !! a) -> seen s a) -> Forall (dseen s) l ->
    (forall a, is_Some (storages (fold_left revert_delta l s) !! a) -> seen (fold_left revert_delta l s) a) /\ grows s (fold_left revert_delta l s).
  Proof.
    induction l as [|d t IH]; intros s H HF; [split; [exact H|now apply grows_same]|]. inversion HF as [|? ? Hd Ht]; subst. destruct (revert_delta_linv s d H Hd) as (H1 & G).
    destruct (IH (revert_delta s d) H1) as (H2 & G2).
    - eapply List.Forall_impl; [|exact Ht]. intros x. now apply dseen_grows.
    - split; [exact H2|]. cbn [fold_left]. eapply grows_trans; eassumption.
  Qed.
  Lemma revert_linv s n : linv s -> linv (revert_to_snapshot s n).
  Proof.
    intros [H1 H2]. unfold revert_to_snapshot. set (m := (length (journal s) - journal_size n)%nat).
    rewrite <- (take_drop m (journal s)) in H2. apply Forall_app in H2 as (Ha & Hb). destruct (revert_all_linv (take m (journal s)) s H1 Ha) as (H3 & G). split; [exact H3|].
    cbn. eapply List.Forall_impl; [|exact Hb]. intros x. now apply dseen_grows.
  Qed.
  Lemma cstep_linv x o : linv (fst x) -> linv (fst (snd (cstep keccak db x o))).
  Proof.
    destruct x as [s sn]. cbn [fst]. intros H. destruct o; cbn [cstep fst snd].
    - unfold exists_. destruct (get_object db s a) eqn:E. eapply get_object_linv; eassumption.
    - unfold is_dead. destruct (get_object db s a) eqn:E. eapply get_object_linv; eassumption.
    - unfold get_balance. destruct (get_object db s a) eqn:E. eapply get_object_linv; eassumption.
    - unfold get_nonce. destruct (get_object db s a) eqn:E. eapply get_object_linv; eassumption.
    - unfold get_code. destruct (get_object db s a) as [p s1] eqn:E. pose proof (get_object_linv _ _ _ _ H E) as H1. destruct (current_of p); [|exact H1]. destruct (bytes_eqb _ _); [exact H1|].
      destruct (codes s1 !! _); [exact H1|]. now apply linv_same with s1.
    - unfold get_code_hash. destruct (get_object db s a) eqn:E. eapply get_object_linv; eassumption.
    - unfold get_current_storage. destruct (get_storage db s a k false) eqn:E. eapply get_storage_linv; eassumption.
    - unfold get_original_storage. destruct (get_storage db s a k true) eqn:E. eapply get_storage_linv; eassumption.
    - now apply create_linv.
    - apply touch_linv. now apply update_current_linv.
    - apply touch_linv. now apply update_current_linv.
    - apply touch_linv. now apply update_current_linv.
    - now apply update_current_linv.
    - unfold set_code. pose proof (update_current_linv s a (fun c0 => with_code_hash c0 (keccak c)) H) as H1. destruct (codes _ !! _); [exact H1|]. eapply linv_same; [exact H1|reflexivity..].
    - now apply set_storage_linv.
    - unfold access_account. cbn [snd]. destruct (bool_decide _); [|now apply linv_same with s].
      eapply (linv_step s _ [AccountAccessDelta a]); [exact H|now apply grows_same|cbn; auto|reflexivity|repeat constructor].
    - unfold access_storage. cbn [snd]. destruct (bool_decide _); [|now apply linv_same with s].
      eapply (linv_step s _ [StorageAccessDelta a k]); [exact H|now apply grows_same|cbn; auto|reflexivity|repeat constructor].
    - now apply touch_linv.
    - unfold record_suicide. destruct (bool_decide _); [|now apply linv_same with s].
      eapply (linv_step s _ [SuicideDelta a]); [exact H|now apply grows_same|cbn; auto|reflexivity|repeat constructor].
    - now apply linv_same with s.
    - now apply linv_same with s.
    - now apply linv_same with s.
    - exact H.
    - exact H.
    - exact H.
    - exact H.
    - destruct (nth_error sn i); [now apply revert_linv|exact H].
    - eapply (linv_step s _ []); [exact H|now apply grows_same| |reflexivity|constructor]. cbn. intros x Hx. left. rewrite lookup_fmap in Hx. destruct (storages s !! x); [now eexists|now destruct Hx].
    - now apply destruct_linv.
    - unfold destruct_suicides. revert s H. induction order as [|a t IH]; intros s H; [exact H|]. apply IH. now apply destruct_linv.
    - unfold destruct_touched_dead. revert s H. induction order as [|a t IH]; intros s H; [exact H|]. cbn [fold_left]. apply IH. unfold is_dead. destruct (get_object db s a) as [p s1] eqn:E.
      pose proof (get_object_linv _ _ _ _ H E) as H1. destruct (match current_of p with Some _ => _ | None => _ end); [now apply destruct_linv|exact H1].
    - eapply (linv_step (set_journal s []) _ []); [|now apply grows_same|cbn; auto|reflexivity|constructor]. destruct H as [H _]. split; [exact H|constructor].
  Qed.
  Lemma crun_linv ops : forall x, linv (fst x) -> linv (fst (snd (crun keccak db x ops))).
  Proof.
    induction ops as [|o t IH]; intros x H; [exact H|]. cbn [crun]. pose proof (cstep_linv x o H) as H1. destruct (cstep keccak db x o) as [v x1]. specialize (IH x1 H1). destruct (crun keccak db x1 t) as [vs x2]. exact IH.
  Qed.
  Lemma linv_new : linv ibs_new.
  Proof. split; [|constructor]. intros a. cbn. rewrite lookup_empty. now intros [? [=]]. Qed.
End Seen.

(** ** The effect of write_to_db, whatever the visiting order *)
Definition nz (v : N) : option N := if v =? 0 then None else Some v.
Lemma put_lookup st key v key' : put st key v !! key' = if decide (key' = key) then nz v else st !! key'.
Proof.
  unfold put, nz. destruct (v =? 0); destruct (decide (key' = key)) as [->|N]; [apply lookup_delete|apply lookup_delete_ne; congruence|apply lookup_insert|apply lookup_insert_ne; congruence].
Qed.

Section Write.
  Variable s : ibs.
  Definition cur (a : N) : option account := objects s !! a ≫= o_current.
  (** what storage_ of a cached, existing account says about a slot of its current incarnation *)
  Definition slot (key : N * N * N) : option committed_value :=
    let '(a, i, k) := key in
    match cur a with Some c => if a_incarnation c =? i then st_committed (storage_of s a) !! k else None | None => None end.
  Definition wkey (m : membuf) (key : N * N * N) : membuf :=
    match slot key with Some cv => update_storage m (fst (fst key)) (snd (fst key)) (snd key) (cv_initial cv) (cv_original cv) | None => m end.
  Definition keys (x : N * list N) : list (N * N * N) := match cur (fst x) with Some c => map (fun k => (fst x, a_incarnation c, k)) (snd x) | None => [] end.

  Lemma write_storage_keys x m : write_storage s m x = fold_left wkey (keys x) m.
  Proof.
    destruct x as [a ks]. unfold write_storage, keys, cur. cbn [fst snd]. destruct (objects s !! a) as [o|] eqn:Eo; cbn; [|reflexivity]. destruct (o_current o) as [c|] eqn:Ec; [|reflexivity].
    revert m. induction ks as [|k t IH]; intros m; [reflexivity|]. cbn [fold_left map]. rewrite <- IH. f_equal. unfold write_slot, wkey, slot, cur. cbn [fst snd].
    rewrite Eo. cbn. rewrite Ec, N.eqb_refl. reflexivity.
  Qed.
  Lemma fold_storage_keys l : forall m, fold_left (write_storage s) l m = fold_left wkey (flat_map keys l) m.
  Proof. induction l as [|x t IH]; intros m; [reflexivity|]. cbn [fold_left flat_map]. rewrite IH, write_storage_keys, fold_left_app. reflexivity. Qed.

  Lemma wkeys_effect l m : let m' := fold_left wkey l m in
    m_accounts m' = m_accounts m /\ m_code m' = m_code m /\ m_prev m' = m_prev m /\ m_acc_changes m' = m_acc_changes m /\ m_block m' = m_block m
    /\ (forall key, m_storage m' !! key = if bool_decide (key ∈ l) then match slot key with Some cv => nz (cv_original cv) | None => m_storage m !! key end else m_storage m !! key)
    /\ (forall key, default ∅ (m_st_changes m' !! m_block m) !! key =
          if bool_decide (key ∈ l) then match slot key with Some cv => Some (cv_initial cv) | None => default ∅ (m_st_changes m !! m_block m) !! key end
          else default ∅ (m_st_changes m !! m_block m) !! key)
    /\ (forall n, n <> m_block m -> m_st_changes m' !! n = m_st_changes m !! n).
  Proof.
    cbv zeta. induction l as [|x l IH] using rev_ind; [repeat split; reflexivity|]. rewrite fold_left_app. cbn [fold_left]. set (m1 := fold_left wkey l m) in *.
    destruct IH as (H1 & H2 & H3 & H4 & H5 & H6 & H7 & H8). unfold wkey. destruct (slot x) as [cv|] eqn:Ex.
    - destruct x as [[a i] k]. cbn [fst snd update_storage m_accounts m_code m_prev m_acc_changes m_block m_storage m_st_changes]. repeat split; try assumption.
      + intros key. rewrite put_lookup, H6. destruct (decide (key = (a, i, k))) as [->|N].
        * rewrite bool_decide_true by set_solver. now rewrite Ex.
        * destruct (bool_decide (key ∈ l)) eqn:El.
          -- apply bool_decide_eq_true in El. rewrite bool_decide_true by set_solver. reflexivity.
          -- apply bool_decide_eq_false in El. rewrite bool_decide_false by set_solver. reflexivity.
      + intros key. rewrite H5, lookup_insert. cbn [default]. unfold default, from_option, id. destruct (decide (key = (a, i, k))) as [->|N].
        * rewrite bool_decide_true by set_solver. rewrite Ex. apply lookup_insert.
        * rewrite lookup_insert_ne by congruence. etransitivity; [exact (H7 key)|]. destruct (bool_decide (key ∈ l)) eqn:El.
          -- apply bool_decide_eq_true in El. rewrite bool_decide_true by set_solver. reflexivity.
          -- apply bool_decide_eq_false in El. rewrite bool_decide_false by set_solver. reflexivity.
      + intros n Hn. rewrite H5, lookup_insert_ne by congruence. now apply H8.
    - repeat split; try assumption.
      + intros key. rewrite H6. destruct (bool_decide (key ∈ l)) eqn:El.
        * apply bool_decide_eq_true in El. now rewrite bool_decide_true by set_solver.
        * destruct (bool_decide (key ∈ l ++ [x])) eqn:Ex2; [|reflexivity]. apply bool_decide_eq_true in Ex2. apply bool_decide_eq_false in El. assert (key = x) as -> by set_solver. now rewrite Ex.
      + intros key. rewrite H7. destruct (bool_decide (key ∈ l)) eqn:El.
        * apply bool_decide_eq_true in El. now rewrite bool_decide_true by set_solver.
        * destruct (bool_decide (key ∈ l ++ [x])) eqn:Ex2; [|reflexivity]. apply bool_decide_eq_true in Ex2. apply bool_decide_eq_false in El. assert (key = x) as -> by set_solver. now rewrite Ex.
  Qed.

  Lemma all_slots sord oord key : order_ok s sord oord -> slot key <> None -> key ∈ flat_map keys sord.
  Proof.
    intros (H1 & H2 & _) Hs. destruct key as [[a i] k]. unfold slot in Hs. destruct (cur a) as [c|] eqn:Ec; [|congruence]. destruct (N.eqb_spec (a_incarnation c) i) as [<-|]; [|congruence].
    assert (Ha : a ∈ map fst sord).
    { rewrite H1. apply elem_of_elements, elem_of_dom. unfold storage_of in Hs. destruct (storages s !! a); [now eexists|]. cbn in Hs. now rewrite lookup_empty in Hs. }
    apply elem_of_list_fmap in Ha as ([a' ks] & -> & Hks). cbn [fst] in *. apply elem_of_list_In, in_flat_map. exists (a', ks). split; [now apply elem_of_list_In|].
    unfold keys. cbn [fst snd]. rewrite Ec. apply in_map. apply elem_of_list_In. rewrite (H2 _ _ Hks). apply elem_of_elements, elem_of_dom. destruct (_ !! k); [now eexists|congruence].
  Qed.

  Definition obj_of (a : N) : option object := objects s !! a.
  Definition writes_code (h : bytes) (a : N) : bool :=
    match objects s !! a with
    | Some o =>
      match o_current o with
      | Some c => negb (bytes_eqb (a_code_hash c) kEmptyHash) && match o_initial o with Some i => negb (a_incarnation i =? a_incarnation c) | None => true end && bytes_eqb (a_code_hash c) h
      | None => false
      end
    | None => false
    end.
  Lemma bytes_eqb_refl h : bytes_eqb h h = true.
  Proof. now apply bytes_eqb_eq. Qed.

  Lemma write_accounts_effect l m : let m' := fold_left (write_account s) l m in
    m_storage m' = m_storage m /\ m_st_changes m' = m_st_changes m /\ m_block m' = m_block m
    /\ (forall a, m_accounts m' !! a = if bool_decide (a ∈ l) then match objects s !! a with Some o => o_current o | None => m_accounts m !! a end else m_accounts m !! a)
    /\ (forall a, m_prev m' !! a = if bool_decide (a ∈ l) then match objects s !! a with Some (mkObj (Some i) None) => Some (a_incarnation i) | _ => m_prev m !! a end else m_prev m !! a)
    /\ (forall h, m_code m' !! h = if existsb (writes_code h) l then Some (default [] (codes s !! h)) else m_code m !! h)
    /\ (forall a, default ∅ (m_acc_changes m' !! m_block m) !! a =
          if bool_decide (a ∈ l) then match objects s !! a with Some o => Some (o_initial o) | None => default ∅ (m_acc_changes m !! m_block m) !! a end
          else default ∅ (m_acc_changes m !! m_block m) !! a)
    /\ (forall n, n <> m_block m -> m_acc_changes m' !! n = m_acc_changes m !! n).
  Proof.
    cbv zeta. induction l as [|x l IH] using rev_ind; [repeat split; reflexivity|]. rewrite fold_left_app. cbn [fold_left]. set (m1 := fold_left (write_account s) l m) in *.
    destruct IH as (H1 & H2 & H3 & H4 & H5 & H6 & H7 & H8).
    assert (In1 : forall a, bool_decide (a ∈ l ++ [x]) = bool_decide (a ∈ l) || bool_decide (a = x)).
    { intros a. destruct (bool_decide (a ∈ l)) eqn:E1; cbn [orb].
      - apply bool_decide_eq_true in E1. apply bool_decide_true. set_solver.
      - apply bool_decide_eq_false in E1. apply bool_decide_ext. set_solver. }
    unfold write_account. destruct (objects s !! x) as [o|] eqn:Eo.
    2:{ repeat split; try assumption.
        - intros a. rewrite H4, In1. destruct (bool_decide (a ∈ l)); [reflexivity|]. cbn [orb]. destruct (bool_decide (a = x)) eqn:Ex; [|reflexivity]. apply bool_decide_eq_true in Ex. subst a. now rewrite Eo.
        - intros a. rewrite H5, In1. destruct (bool_decide (a ∈ l)); [reflexivity|]. cbn [orb]. destruct (bool_decide (a = x)) eqn:Ex; [|reflexivity]. apply bool_decide_eq_true in Ex. subst a. now rewrite Eo.
        - intros h. rewrite H6, existsb_app. cbn [existsb]. unfold writes_code at 3. rewrite Eo, !orb_false_r. reflexivity.
        - intros a. rewrite H7, In1. destruct (bool_decide (a ∈ l)); [reflexivity|]. cbn [orb]. destruct (bool_decide (a = x)) eqn:Ex; [|reflexivity]. apply bool_decide_eq_true in Ex. subst a. now rewrite Eo. }
    set (m2 := update_account m1 x (o_initial o) (o_current o)).
    assert (U : m_storage m2 = m_storage m /\ m_st_changes m2 = m_st_changes m /\ m_block m2 = m_block m /\ m_code m2 = m_code m1
      /\ (forall a, m_accounts m2 !! a = if bool_decide (a ∈ l ++ [x]) then match objects s !! a with Some o => o_current o | None => m_accounts m !! a end else m_accounts m !! a)
      /\ (forall a, m_prev m2 !! a = if bool_decide (a ∈ l ++ [x]) then match objects s !! a with Some (mkObj (Some i) None) => Some (a_incarnation i) | _ => m_prev m !! a end else m_prev m !! a)
      /\ (forall a, default ∅ (m_acc_changes m2 !! m_block m) !! a =
          if bool_decide (a ∈ l ++ [x]) then match objects s !! a with Some o => Some (o_initial o) | None => default ∅ (m_acc_changes m !! m_block m) !! a end
          else default ∅ (m_acc_changes m !! m_block m) !! a)
      /\ (forall n, n <> m_block m -> m_acc_changes m2 !! n = m_acc_changes m !! n)).
    { assert (Q1 : m_acc_changes m2 = <[m_block m1 := <[x := o_initial o]> (default ∅ (m_acc_changes m1 !! m_block m1))]> (m_acc_changes m1)) by (unfold m2, update_account; now destruct (o_current o)).
      assert (Q2 : m_storage m2 = m_storage m1 /\ m_st_changes m2 = m_st_changes m1 /\ m_block m2 = m_block m1 /\ m_code m2 = m_code m1) by (unfold m2, update_account; now destruct (o_current o)).
      destruct Q2 as (Q2 & Q3 & Q4 & Q5). repeat split; try congruence.
      - intros a. rewrite In1. destruct (decide (a = x)) as [->|N].
        + rewrite (bool_decide_true (x = x)), orb_true_r, Eo by reflexivity. unfold m2, update_account. destruct (o_current o); [apply lookup_insert|apply lookup_delete].
        + rewrite (bool_decide_false (a = x)), orb_false_r by exact N. rewrite <- H4. unfold m2, update_account. destruct (o_current o); [apply lookup_insert_ne; congruence|apply lookup_delete_ne; congruence].
      - intros a. rewrite In1. destruct (decide (a = x)) as [->|N].
        + rewrite (bool_decide_true (x = x)), orb_true_r, Eo by reflexivity. unfold m2, update_account. destruct o as [[i|] [c|]]; cbn [o_initial o_current m_prev]; try apply lookup_insert; rewrite H5;
            destruct (bool_decide (x ∈ l)); [rewrite Eo; reflexivity|reflexivity|rewrite Eo; reflexivity|reflexivity|rewrite Eo; reflexivity|reflexivity].
        + rewrite (bool_decide_false (a = x)), orb_false_r by exact N. rewrite <- H5. unfold m2, update_account. destruct o as [[i|] [c|]]; cbn [o_initial o_current m_prev]; try reflexivity. apply lookup_insert_ne; congruence.
      - intros a. rewrite In1, Q1, H3, lookup_insert. cbn [default from_option id]. unfold default at 1, from_option, id. destruct (decide (a = x)) as [->|N].
        + rewrite (bool_decide_true (x = x)), orb_true_r, Eo by reflexivity. apply lookup_insert.
        + rewrite (bool_decide_false (a = x)), orb_false_r by exact N. rewrite lookup_insert_ne by congruence. exact (H7 a).
      - intros n Hn. rewrite Q1, H3, lookup_insert_ne by congruence. now apply H8. }
    destruct U as (U1 & U2 & U3 & U4 & U5 & U6 & U7 & U8). clearbody m2.
    assert (W : forall h, writes_code h x = match o_current o with Some c => negb (bytes_eqb (a_code_hash c) kEmptyHash) && match o_initial o with Some i => negb (a_incarnation i =? a_incarnation c) | None => true end && bytes_eqb (a_code_hash c) h | None => false end).
    { intros h. unfold writes_code. now rewrite Eo. }
    destruct (o_current o) as [c|].
    2:{ repeat split; try assumption. intros h. rewrite U4, H6, existsb_app. cbn [existsb]. rewrite W, !orb_false_r. reflexivity. }
    destruct (negb (bytes_eqb (a_code_hash c) kEmptyHash) && match o_initial o with Some i => _ | None => true end) eqn:Ew.
    - repeat split; try assumption. intros h. rewrite existsb_app. cbn [existsb update_account_code m_code]. rewrite W, orb_false_r. cbn [andb]. destruct (bytes_eqb (a_code_hash c) h) eqn:Eh.
      + apply bytes_eqb_eq in Eh. subst h. rewrite lookup_insert, orb_true_r. reflexivity.
      + assert (a_code_hash c <> h) by (intros <-; rewrite bytes_eqb_refl in Eh; discriminate). rewrite lookup_insert_ne by assumption. rewrite orb_false_r, U4. apply H6.
    - repeat split; try assumption. intros h. rewrite U4, H6, existsb_app. cbn [existsb]. rewrite W, !orb_false_r. reflexivity.
  Qed.
End Write.

Lemma write_effect s m n sord oord : order_ok s sord oord -> let m' := write_to_db s m n sord oord in
  (forall a, m_accounts m' !! a = match objects s !! a with Some o => o_current o | None => m_accounts m !! a end)
  /\ (forall a, m_prev m' !! a = match objects s !! a with Some (mkObj (Some i) None) => Some (a_incarnation i) | _ => m_prev m !! a end)
  /\ (forall h, m_code m' !! h = if existsb (writes_code s h) oord then Some (default [] (codes s !! h)) else m_code m !! h)
  /\ (forall key, m_storage m' !! key = match slot s key with Some cv => nz (cv_original cv) | None => m_storage m !! key end)
  /\ (forall a, default ∅ (m_acc_changes m' !! n) !! a = o_initial <$> objects s !! a)
  /\ (forall key, default ∅ (m_st_changes m' !! n) !! key = cv_initial <$> slot s key)
  /\ (forall k, k <> n -> m_acc_changes m' !! k = m_acc_changes m !! k /\ m_st_changes m' !! k = m_st_changes m !! k).
Proof.
  intros Ho. cbv zeta. unfold write_to_db. rewrite fold_storage_keys. set (m0 := begin_block m n). set (l := flat_map (keys s) sord).
  destruct (wkeys_effect s l m0) as (A1 & A2 & A3 & A4 & A5 & A6 & A7 & A8). set (m1 := fold_left (wkey s) l m0) in *.
  destruct (write_accounts_effect s oord m1) as (B1 & B2 & B3 & B4 & B5 & B6 & B7 & B8). set (m2 := fold_left (write_account s) oord m1) in *.
  change (m_block m0) with n in *. rewrite A5 in *.
  assert (InO : forall a o, objects s !! a = Some o -> bool_decide (a ∈ oord) = true).
  { intros a o E. apply bool_decide_true. destruct Ho as (_ & _ & ->). apply elem_of_elements, elem_of_dom. eexists; eassumption. }
  assert (Sl : forall key, bool_decide (key ∈ l) = true \/ slot s key = None).
  { intros key. destruct (slot s key) eqn:E; [left|now right]. apply bool_decide_true. eapply all_slots; [exact Ho|congruence]. }
  repeat split.
  - intros a. rewrite B4, A1. destruct (objects s !! a) as [o|] eqn:E; [now rewrite (InO _ _ E)|]. apply bool_eta.
  - intros a. rewrite B5, A3. destruct (objects s !! a) as [o|] eqn:E; [now rewrite (InO _ _ E)|]. apply bool_eta.
  - intros h. rewrite B6, A2. reflexivity.
  - intros key. rewrite B1, A6. destruct (Sl key) as [->| ->]; [reflexivity|]. apply bool_eta.
  - intros a. rewrite B7, A4. cbn [m0 begin_block m_acc_changes]. rewrite lookup_delete. cbn [default from_option]. destruct (objects s !! a) as [o|] eqn:E; [now rewrite (InO _ _ E)|].
    rewrite bool_eta. apply lookup_empty.
  - intros key. rewrite B2, A7. cbn [m0 begin_block m_st_changes]. rewrite lookup_delete. cbn [default from_option]. destruct (Sl key) as [->| ->].
    + destruct (slot s key); [reflexivity|apply lookup_empty].
    + rewrite bool_eta. apply lookup_empty.
  - rewrite B8 by congruence. rewrite A4. cbn [m0 begin_block m_acc_changes]. now rewrite lookup_delete_ne by congruence.
  - rewrite B2. rewrite A8 by congruence. cbn [m0 begin_block m_st_changes]. now rewrite lookup_delete_ne by congruence.
Qed.

(** ** One block *)
Section Block.
  Variable keccak code_of : bytes -> bytes.
  Hypothesis Hempty : keccak [] = kEmptyHash.
  Hypothesis Hcempty : code_of kEmptyHash = [].

  Lemma mem_zs room m past w : mem_ok keccak code_of room m past w -> zs w.
  Proof.
    intros [(S1 & S2 & S3 & _) (D & _) _ _] a Ha k. rewrite S3, S2. unfold contract_in in Ha. rewrite S1 in Ha.
    destruct (read_account (mem_reader m) a) as [c|]; [|split; reflexivity]. cbn in Ha. destruct (N.eqb_spec (a_incarnation c) 0) as [->|]; [|discriminate]. split; apply D.
  Qed.
  Lemma contract_db m w a : starts code_of (mem_reader m) w -> contract_in w a = db_contract (mem_reader m) a.
  Proof. intros (S1 & _). unfold contract_in, db_contract. rewrite S1. now destruct (read_account (mem_reader m) a). Qed.

  Lemma block_step0 room m past w ops vs w' sn vs' s sn' n sord oord :
    mem_ok keccak code_of room m past w -> N.of_nat (length ops) <= room -> (forall c, In c (flat_map op_code ops) -> code_of (keccak c) = c) ->
    arun keccak (contract_in w) (w, []) ops = Some (vs, (w', sn)) -> writable w w' ->
    crun keccak (mem_reader m) (ibs_new, []) ops = (vs', (s, sn')) -> order_ok s sord oord ->
    vs' = vs /\ starts code_of (mem_reader (write_to_db s m n sord oord)) (next_world w')
    /\ db_ok keccak code_of (mem_reader (write_to_db s m n sord oord)) (room - N.of_nat (length ops))
    /\ (incarnations_kept past w w' -> mem_ok keccak code_of (room - N.of_nat (length ops)) (write_to_db s m n sord oord) (next_past past w w') (next_world w'))
    /\ (forall a o, objects s !! a = Some o -> o_initial o = m_accounts m !! a)
    /\ (forall key cv, slot s key = Some cv -> nz (cv_initial cv) = m_storage m !! key)
    /\ (forall h, h <> kEmptyHash -> let code := default [] (m_code (write_to_db s m n sord oord) !! h) in code = default [] (m_code m !! h) \/ code = code_of h)
    /\ (incarnations_kept past w w' -> forall a q, past a = true -> q <= default 0 (m_prev m !! a) -> (forall c, m_accounts m !! a = Some c -> a_incarnation c <> 0 -> q <= a_incarnation c) ->
        let m' := write_to_db s m n sord oord in q <= default 0 (m_prev m' !! a) /\ (forall c, m_accounts m' !! a = Some c -> a_incarnation c <> 0 -> q <= a_incarnation c)).
  Proof.
    intros Hm Hlen Hcode Ha (B1 & B2) Hc Ho. pose proof (mem_zs _ _ _ _ Hm) as Hz. destruct Hm as [Hst Hdb Hinc Hnz].
    rewrite (arun_ext keccak _ (db_contract (mem_reader m)) ops (fun a => contract_db m w a Hst)) in Ha.
    pose proof (zs_run _ _ _ _ _ _ _ _ Ha Hz ltac:(constructor)) as Hz'.
    destruct (refines keccak code_of (mem_reader m) room Hdb Hempty Hcempty w ops vs (w', sn) Hst Hlen Hcode Ha) as ([s1 sn1] & n1 & E & Hn1 & [Hi HR _]).
    rewrite E in Hc. injection Hc as <- <- <-. split; [reflexivity|]. cbn [fst] in *.
    pose proof (crun_linv keccak (mem_reader m) ops (ibs_new, []) (linv_new _)) as HL. rewrite E in HL. cbn [fst snd] in HL. destruct HL as [HL _].
    set (ox := objx (mem_reader m) s1).
    assert (Oinit : forall a, o_initial (ox a) = m_accounts m !! a) by (intros a; apply (inv_obj _ _ _ _ _ _ Hi a)).
    (* the current account *)
    assert (Ocur : forall a, o_current (ox a) = match objects s1 !! a with Some o => o_current o | None => m_accounts m !! a end).
    { intros a. unfold ox, objx. destruct (objects s1 !! a); [reflexivity|]. unfold load. cbn. now destruct (m_accounts m !! a). }
    (* old storage at the current incarnation *)
    assert (Old : forall a c k, o_current (ox a) = Some c -> default 0 (m_storage m !! (a, a_incarnation c, k)) = defx (mem_reader m) (ox a) a k).
    { intros a c k Ec. unfold defx. rewrite Ec. destruct (inv_obj _ _ _ _ _ _ Hi a) as (_ & Hobj). destruct (Hobj c Ec) as (_ & _ & _ & _ & _ & I6 & I7). fold ox in I6.
      destruct Hdb as (D1 & D2 & D3).
      destruct (m_storage m !! (a, a_incarnation c, k)) as [v|] eqn:Ev; cbn [default from_option id].
      2:{ destruct (o_initial (ox a)) as [i|]; [|reflexivity]. destruct (a_incarnation i =? a_incarnation c); [|reflexivity]. cbn. now rewrite Ev. }
      destruct (N.eq_dec (a_incarnation c) 0) as [E0|E0].
      { exfalso. specialize (D1 a k). cbn in D1. rewrite E0 in Ev. rewrite Ev in D1. cbn in D1. apply (Hnz _ _ Ev D1). }
      destruct (Hinc a _ k v Ev) as [(c0 & Ec0 & Hn0 & Hle)|(Hcw & _ & Hp)].
      2:{ exfalso. fold ox in I7. rewrite (contract_db m w a Hst) in Hcw. unfold db_contract in Hcw. cbn in Hcw, I7. rewrite Oinit in I7.
          assert (Hz0 : match m_accounts m !! a with Some i => a_incarnation i | None => 0 end = 0).
          { destruct (m_accounts m !! a) as [i|]; [|reflexivity]. now apply negb_false_iff, N.eqb_eq in Hcw. }
          specialize (I7 Hz0 E0). lia. }
      rewrite <- Oinit in Ec0. rewrite Ec0. specialize (I6 c0 Ec0 E0). replace (a_incarnation c0 =? a_incarnation c) with true by (symmetry; apply N.eqb_eq; lia). cbn. now rewrite Ev. }
    (* slots *)
    assert (Slot : forall a i k cv, slot s1 (a, i, k) = Some cv -> exists c, o_current (ox a) = Some c /\ a_incarnation c = i /\ st_committed (storage_of s1 a) !! k = Some cv).
    { intros a i k cv. unfold slot, cur. destruct (objects s1 !! a) as [o|] eqn:Eo; cbn; [|discriminate]. destruct (o_current o) as [c|] eqn:Ec; [|discriminate].
      destruct (N.eqb_spec (a_incarnation c) i) as [Hi'|]; [|discriminate]. intros H. exists c. rewrite Ocur, Eo. auto. }
    (* new storage at the current incarnation *)
    destruct (write_effect s1 m n sord oord Ho) as (W1 & W2 & W3 & W4 & W5 & W6 & W7). set (m' := write_to_db s1 m n sord oord) in *.
    assert (Acc : forall a, m_accounts m' !! a = o_current (ox a)) by (intros a; rewrite W1, Ocur; reflexivity).
    assert (New : forall a c k, o_current (ox a) = Some c -> default 0 (m_storage m' !! (a, a_incarnation c, k)) = origx (mem_reader m) (ox a) (storage_of s1 a) a k).
    { intros a c k Ec. rewrite W4. unfold origx. destruct (slot s1 (a, a_incarnation c, k)) as [cv|] eqn:Es.
      - destruct (Slot _ _ _ _ Es) as (c' & Ec' & _ & Ecv). rewrite Ecv. unfold nz. destruct (N.eqb_spec (cv_original cv) 0) as [->|]; reflexivity.
      - replace (st_committed (storage_of s1 a) !! k) with (@None committed_value); [now apply Old|].
        destruct (st_committed (storage_of s1 a) !! k) as [cv|] eqn:Ecv; [exfalso|reflexivity].
        assert (Sn : seen (mem_reader m) s1 a). { apply HL. unfold storage_of in Ecv. destruct (storages s1 !! a); [now eexists|]. cbn in Ecv. rewrite lookup_empty in Ecv. discriminate. }
        unfold slot, cur in Es. rewrite Ocur in Ec. destruct (objects s1 !! a) as [o|] eqn:Eo.
        + cbn in Es. rewrite Ec, N.eqb_refl in Es. congruence.
        + destruct Sn as [Sn|Sn]; [cbn in Sn; congruence|]. rewrite Eo in Sn. now destruct Sn. }
    (* the previous incarnation *)
    assert (Prev : forall a, default 0 (m_prev m' !! a) = match m_accounts m !! a, o_current (ox a) with Some i, None => a_incarnation i | _, _ => default 0 (m_prev m !! a) end).
    { intros a. rewrite W2, <- Oinit. unfold ox, objx. destruct (objects s1 !! a) as [[[i|] [c|]]|]; try reflexivity. unfold load. cbn. destruct (m_accounts m !! a); reflexivity. }
    pose proof (r_0 _ _ _ _ HR) as H0. pose proof (R_touched _ _ _ _ HR) as Ht.
    assert (Wx : forall a, w_acct w' a = acct_of code_of <$> o_current (ox a)) by apply H0.
    assert (Zero' : forall a k, default 0 (m_storage m' !! (a, 0, k)) = 0).
    { intros a k. rewrite W4. destruct Hdb as (D1 & _). destruct (slot s1 (a, 0, k)) as [cv|] eqn:Es; [|exact (D1 a k)]. destruct (Slot _ _ _ _ Es) as (c & Ec & Ei & Ecv).
      assert (X : origx (mem_reader m) (ox a) (storage_of s1 a) a k = 0).
      { etransitivity; [apply H0|]. apply Hz'. unfold contract_in. rewrite Wx, Ec. cbn. now rewrite Ei. }
      unfold origx in X. rewrite Ecv in X. rewrite X. reflexivity. }
    assert (Nz' : forall key v, m_storage m' !! key = Some v -> v <> 0).
    { intros key v. rewrite W4. destruct (slot s1 key) as [cv|]; [|apply Hnz]. unfold nz. destruct (N.eqb_spec (cv_original cv) 0); [discriminate|]. congruence. }
    assert (Cod : forall h, h <> kEmptyHash -> existsb (writes_code s1 h) oord = true -> default [] (codes s1 !! h) = code_of h).
    { intros h Hne Ee. pose proof (inv_codes _ _ _ _ _ _ Hi) as Hcs.
      apply existsb_exists in Ee as (b & _ & Hb). unfold writes_code in Hb. destruct (objects s1 !! b) as [o|] eqn:Eo; [|discriminate]. destruct (o_current o) as [cb|] eqn:Eb; [|discriminate].
      apply andb_true_iff in Hb as [Hb Hh]. apply andb_true_iff in Hb as [_ Hb]. apply bytes_eqb_eq in Hh. rewrite <- Hh in *.
      destruct (inv_obj _ _ _ _ _ _ Hi b) as (_ & Hobjb). fold ox in Hobjb. assert (Eob : ox b = o) by (unfold ox, objx; now rewrite Eo). rewrite Eob in Hobjb.
      destruct (Hobjb cb Eb) as (_ & _ & J3 & _). destruct (J3 Hne) as [code Hcode'].
      { intros i Ei. rewrite Ei in Hb. right. now apply negb_true_iff, N.eqb_neq in Hb. }
      transitivity code; [exact (f_equal (default []) Hcode')|now apply Hcs]. }
    assert (St : starts code_of (mem_reader m') (next_world w')).
    { unfold starts, next_world. cbn [w_acct w_current w_original w_gone w_born w_suicides w_logs w_touched w_refund w_addresses w_keys]. repeat split.
      + intros a. rewrite Wx. cbn. now rewrite Acc.
      + intros a k. cbn. rewrite Acc. destruct (o_current (ox a)) as [c|] eqn:Ec.
        * rewrite (New a c k Ec), <- B1. symmetry. apply H0.
        * apply Hz'. unfold contract_in. rewrite Wx, Ec. reflexivity. }
    assert (Dbk : db_ok keccak code_of (mem_reader m') (room - N.of_nat (length ops))).
    { destruct Hdb as (D1 & D2 & D3). split; [|split].
      + exact Zero'.
      + intros a c. cbn. rewrite Acc. intros Ec. destruct (inv_obj _ _ _ _ _ _ Hi a) as (_ & Hobj). destruct (Hobj c Ec) as (I1 & I2 & I3 & I4 & I5 & I6 & I7). fold ox in I3, I6.
        split; [exact I1|]. split; [|lia].
        * intros Hne. rewrite W3. pose proof (inv_codes _ _ _ _ _ _ Hi) as Hcs.
          destruct (existsb (writes_code s1 (a_code_hash c)) oord) eqn:Ee; cbn [default from_option id].
          -- now apply Cod.
          -- (* not written: the old code *)
             assert (Same : exists i, m_accounts m !! a = Some i /\ a_code_hash i = a_code_hash c).
             { rewrite Ocur in Ec. destruct (objects s1 !! a) as [o|] eqn:Eo; [|now exists c].
               assert (Eoa : ox a = o) by (unfold ox, objx; now rewrite Eo). pose proof (Oinit a) as Hin. rewrite Eoa in Hin.
               assert (Wn : writes_code s1 (a_code_hash c) a = false).
               { destruct (writes_code s1 (a_code_hash c) a) eqn:Ew; [|reflexivity]. rewrite <- Ee. symmetry. apply existsb_exists. exists a. split; [|exact Ew].
                 apply elem_of_list_In. destruct Ho as (_ & _ & ->). apply elem_of_elements, elem_of_dom. eexists; eassumption. }
               unfold writes_code in Wn. rewrite Eo, Ec, bytes_eqb_refl, andb_true_r in Wn. replace (bytes_eqb (a_code_hash c) kEmptyHash) with false in Wn
                 by (symmetry; destruct (bytes_eqb (a_code_hash c) kEmptyHash) eqn:Eq; [apply bytes_eqb_eq in Eq; contradiction|reflexivity]).
               cbn [negb andb] in Wn. destruct (o_initial o) as [i|] eqn:Ei; [|discriminate]. apply negb_false_iff, N.eqb_eq in Wn. exists i. split; [congruence|].
               pose proof Hst as (S1 & _). specialize (S1 a). cbn in S1. rewrite <- Hin in S1. cbn in S1.
               destruct (B2 a _ _ S1 (eq_trans (Wx a) (f_equal _ (eq_trans (f_equal o_current Eoa) Ec)))) as [Hb|Hb].
               - destruct (r_born _ _ _ _ H0 a Hb) as (c' & Ec' & Hne'). fold ox in Ec', Hne'. rewrite Eoa in Ec', Hne'. rewrite Ec in Ec'. injection Ec' as <-. exfalso. exact (Hne' i Ei Wn).
               - cbn in Hb. destruct (D2 a i) as (K1 & _); [cbn; congruence|]. rewrite <- K1, <- I1. now rewrite Hb. }
             destruct Same as (i & Ei & Eh). destruct (D2 a i Ei) as (_ & K2 & _). rewrite <- Eh in *. exact (K2 Hne).
      + intros a. cbn. rewrite Prev. specialize (D3 a). cbn in D3. destruct (m_accounts m !! a) as [i|] eqn:Ei; [|lia]. destruct (o_current (ox a)); [lia|].
        destruct (D2 a i Ei) as (_ & _ & K). lia. }
    split; [exact St|]. split; [exact Dbk|]. split; [|split; [|split; [|split]]].
    - intros (B3 & B4). constructor; [exact St|exact Dbk| |exact Nz']. (* storage incarnations *) intros a i k v Ev'.
      assert (Hi0 : i <> 0). { intros ->. specialize (Zero' a k). rewrite Ev' in Zero'. exact (Nz' _ _ Ev' Zero'). }
      rewrite W4 in Ev'. rewrite Prev, Acc. assert (Cn : contract_in (next_world w') a = match o_current (ox a) with Some c => negb (a_incarnation c =? 0) | None => false end).
      { unfold contract_in, next_world. cbn [w_acct]. rewrite Wx. now destruct (o_current (ox a)). }
      destruct (slot s1 (a, i, k)) as [cv|] eqn:Es.
      { left. destruct (Slot _ _ _ _ Es) as (c & Ec & Ei & _). exists c. split; [exact Ec|]. lia. }
      specialize (Hinc a i k v Ev'). rewrite (contract_db m w a Hst) in Hinc. unfold db_contract in Hinc. cbn in Hinc. rewrite Cn. unfold next_past, w_exists. rewrite Wx.
      destruct (o_current (ox a)) as [c|] eqn:Ec.
      + replace (match m_accounts m !! a with Some _ | _ => default 0 (m_prev m !! a) end) with (default 0 (m_prev m !! a)) by (now destruct (m_accounts m !! a)).
        destruct (inv_obj _ _ _ _ _ _ Hi a) as (_ & Hobj). destruct (Hobj c Ec) as (_ & _ & _ & _ & _ & I6 & I7). fold ox in I6, I7. rewrite Oinit in I6, I7. cbn in I7.
        destruct Hinc as [(c0 & Ec0 & Hn0 & Hle)|(Hcw & Hpa & Hp)].
        * left. exists c. split; [reflexivity|]. assert (Cw : contract_in w a = true).
          { rewrite (contract_db m w a Hst). unfold db_contract. cbn. rewrite Ec0. now apply negb_true_iff, N.eqb_neq. }
          specialize (B3 a Cw). unfold w_exists, contract_in in B3. rewrite Wx, Ec in B3. cbn in B3. specialize (B3 eq_refl). apply negb_true_iff, N.eqb_neq in B3.
          specialize (I6 c0 Ec0 B3). lia.
        * assert (Hz0 : match m_accounts m !! a with Some i => a_incarnation i | None => 0 end = 0).
          { destruct (m_accounts m !! a); [|reflexivity]. now apply negb_false_iff, N.eqb_eq in Hcw. }
          destruct (N.eqb_spec (a_incarnation c) 0) as [E0|E0]; [right; rewrite Hpa; auto|left]. exists c. specialize (I7 Hz0 E0). split; [reflexivity|]. lia.
      + right. split; [reflexivity|]. rewrite (contract_db m w a Hst). unfold db_contract. cbn.
        destruct Hinc as [(c0 & Ec0 & Hn0 & Hle)|(Hcw & Hpa & Hp)].
        * rewrite Ec0. apply N.eqb_neq in Hn0. rewrite Hn0. split; [apply orb_true_r|exact Hle].
        * rewrite Hpa. split; [reflexivity|]. destruct (m_accounts m !! a) as [c0|] eqn:Ec0; [|exact Hp]. exfalso.
          assert (Ex : w_exists w a = true) by (unfold w_exists; destruct Hst as (S1 & _); rewrite S1; cbn; now rewrite Ec0).
          assert (Cw : contract_in w a = false). { rewrite (contract_db m w a Hst). unfold db_contract. cbn. now rewrite Ec0. }
          specialize (B4 a Hpa Ex Cw). unfold w_exists in B4. rewrite Wx, Ec in B4. discriminate.
    - intros a o Eo. rewrite <- Oinit. unfold ox, objx. now rewrite Eo.
    - intros [[a i] k] cv Es. destruct (Slot _ _ _ _ Es) as (c & Ec & <- & Ecv). destruct (inv_st _ _ _ _ _ _ Hi a) as (_ & Hs2). rewrite (Hs2 k cv Ecv). fold ox. rewrite <- (Old a c k Ec).
      destruct (m_storage m !! (a, a_incarnation c, k)) as [v|] eqn:Ev; cbn; [|reflexivity]. unfold nz. destruct (N.eqb_spec v 0) as [->|]; [|reflexivity]. exfalso. exact (Hnz _ _ Ev eq_refl).
    - intros h Hne. rewrite W3. destruct (existsb (writes_code s1 h) oord) eqn:Ee; [right; now apply Cod|now left].
    - intros (B3 & B4) a q Hpa Hq Hqc. cbv zeta. fold m'. rewrite Prev, Acc. split.
      + destruct (m_accounts m !! a) as [c0|] eqn:Ec0; [|exact Hq]. destruct (o_current (ox a)) as [c|] eqn:Ec; [exact Hq|].
        destruct (N.eq_dec (a_incarnation c0) 0) as [E0|E0]; [|now apply Hqc]. exfalso.
        assert (Ex : w_exists w a = true) by (unfold w_exists; destruct Hst as (S1 & _); rewrite S1; cbn; now rewrite Ec0).
        assert (Cw : contract_in w a = false). { rewrite (contract_db m w a Hst). unfold db_contract. cbn. now rewrite Ec0, E0. }
        specialize (B4 a Hpa Ex Cw). unfold w_exists in B4. rewrite Wx, Ec in B4. discriminate.
      + intros c Ec Hne. destruct (inv_obj _ _ _ _ _ _ Hi a) as (_ & Hobj). destruct (Hobj c Ec) as (_ & _ & _ & _ & _ & I6 & I7). fold ox in I6, I7. rewrite Oinit in I6, I7. cbn in I7.
        destruct (m_accounts m !! a) as [c0|] eqn:Ec0; [|specialize (I7 eq_refl Hne); lia].
        destruct (N.eq_dec (a_incarnation c0) 0) as [E0|E0]; [specialize (I7 E0 Hne); lia|]. specialize (I6 c0 eq_refl Hne). specialize (Hqc c0 eq_refl E0). lia.
  Qed.

  Lemma block_step room m past w ops vs w' sn vs' s sn' n sord oord :
    mem_ok keccak code_of room m past w -> N.of_nat (length ops) <= room -> (forall c, In c (flat_map op_code ops) -> code_of (keccak c) = c) ->
    arun keccak (contract_in w) (w, []) ops = Some (vs, (w', sn)) -> block_ok past w w' ->
    crun keccak (mem_reader m) (ibs_new, []) ops = (vs', (s, sn')) -> order_ok s sord oord ->
    let m' := write_to_db s m n sord oord in
    vs' = vs /\ mem_ok keccak code_of (room - N.of_nat (length ops)) m' (next_past past w w') (next_world w')
    /\ (forall a o, objects s !! a = Some o -> o_initial o = m_accounts m !! a)
    /\ (forall key cv, slot s key = Some cv -> nz (cv_initial cv) = m_storage m !! key)
    /\ (forall h, h <> kEmptyHash -> let code := default [] (m_code m' !! h) in code = default [] (m_code m !! h) \/ code = code_of h)
    /\ (forall a q, past a = true -> q <= default 0 (m_prev m !! a) -> (forall c, m_accounts m !! a = Some c -> a_incarnation c <> 0 -> q <= a_incarnation c) ->
        q <= default 0 (m_prev m' !! a) /\ (forall c, m_accounts m' !! a = Some c -> a_incarnation c <> 0 -> q <= a_incarnation c)).
  Proof.
    intros Hm Hlen Hcode Ha (B12 & B34) Hc Ho. cbv zeta.
    destruct (block_step0 room m past w ops vs w' sn vs' s sn' n sord oord Hm Hlen Hcode Ha B12 Hc Ho) as (E & _ & _ & H1 & H2 & H3 & H4 & H5).
    split; [exact E|]. split; [exact (H1 B34)|]. split; [exact H2|]. split; [exact H3|]. split; [exact H4|exact (H5 B34)].
  Qed.

  (** ** Several blocks *)
  Theorem replay_refines blocks : forall room m past w vss past2 w2, mem_ok keccak code_of room m past w -> total_ops blocks <= room ->
    (forall c, In c (flat_map op_code (concat (map snd blocks))) -> code_of (keccak c) = c) ->
    replay keccak past w blocks vss past2 w2 -> forall vss' m2, mreplay keccak m blocks vss' m2 ->
    vss' = vss /\ mem_ok keccak code_of (room - total_ops blocks) m2 past2 w2.
  Proof.
    induction blocks as [|[n ops] rest IH]; intros room m past w vss past2 w2 Hm Hlen Hcode Hr vss' m2 Hmr.
    - inversion Hr; subst. inversion Hmr; subst. split; [reflexivity|]. unfold total_ops. cbn. now rewrite N.sub_0_r.
    - inversion Hr as [|p0 w0 n0 ops0 rest0 vs vss0 w' sn p2 w2' Ha Hb Hrest]; subst. inversion Hmr as [|m0 n0 ops0 rest0 vs1 vss1 s sn1 sord oord m2' Hc Ho Hmrest]; subst.
      unfold total_ops in *. cbn [map concat snd] in *. rewrite app_length in *. rewrite flat_map_app in Hcode.
      destruct (block_step room m past w ops vs w' sn vs1 s sn1 n sord oord Hm ltac:(lia) ltac:(intros c Hc'; apply Hcode, in_or_app; now left) Ha Hb Hc Ho) as (E & Hm' & _). subst vs1.
      destruct (IH _ _ _ _ _ _ _ Hm' ltac:(lia) ltac:(intros c Hc'; apply Hcode, in_or_app; now right) Hrest _ _ Hmrest) as (-> & Hm2).
      split; [reflexivity|]. replace (room - N.of_nat (length ops + length (concat (map snd rest)))) with (room - N.of_nat (length ops) - N.of_nat (length (concat (map snd rest)))) by lia. exact Hm2.
  Qed.

  (** ** Unwinding *)
  Lemma unwind_accounts_effect n l : forall m, let u := fold_left (unwind_account n) l m in
    (forall a, m_accounts u !! a = match default ∅ (m_acc_changes m !! n) !! a with Some x => if decide (a ∈ l) then x else m_accounts m !! a | None => m_accounts m !! a end)
    /\ m_code u = m_code m /\ m_prev u = m_prev m /\ m_storage u = m_storage m /\ m_acc_changes u = m_acc_changes m /\ m_st_changes u = m_st_changes m.
  Proof.
    induction l as [|b l IH]; intros m; cbv zeta.
    - split; [|auto]. intros a. cbn [fold_left]. destruct (default ∅ (m_acc_changes m !! n) !! a); [|reflexivity]. destruct (decide (a ∈ [])) as [H|]; [inversion H|reflexivity].
    - cbn [fold_left]. destruct (IH (unwind_account n m b)) as (H1 & H2 & H3 & H4 & H5 & H6). set (u := fold_left _ _ _) in *.
      assert (E : m_code (unwind_account n m b) = m_code m /\ m_prev (unwind_account n m b) = m_prev m /\ m_storage (unwind_account n m b) = m_storage m
        /\ m_acc_changes (unwind_account n m b) = m_acc_changes m /\ m_st_changes (unwind_account n m b) = m_st_changes m
        /\ forall a, m_accounts (unwind_account n m b) !! a = match default ∅ (m_acc_changes m !! n) !! a with Some x => if decide (a = b) then x else m_accounts m !! a | None => m_accounts m !! a end).
      { unfold unwind_account. destruct (m_acc_changes m !! n) as [ch|] eqn:En; cbn [mbind option_bind default from_option id].
        - destruct (ch !! b) as [[c|]|] eqn:Eb; cbn; repeat split; intros a; (destruct (decide (a = b)) as [->|Na]; [rewrite Eb, ?lookup_insert, ?lookup_delete; reflexivity|]);
            rewrite ?lookup_insert_ne, ?lookup_delete_ne by congruence; destruct (ch !! a); reflexivity.
        - repeat split; try (intros a; rewrite lookup_empty); reflexivity. }
      destruct E as (E1 & E2 & E3 & E4 & E5 & E6). repeat split; try congruence. intros a. rewrite H1, E4, E6. destruct (default ∅ (m_acc_changes m !! n) !! a) as [x|]; [|reflexivity].
      destruct (decide (a ∈ l)) as [Hl|Hl], (decide (a ∈ b :: l)) as [Hb|Hb], (decide (a = b)) as [Hab|Hab]; try reflexivity; exfalso; set_solver.
  Qed.
  Lemma unwind_slots_effect n l : forall m, let u := fold_left (unwind_slot n) l m in
    (forall a, m_storage u !! a = match default ∅ (m_st_changes m !! n) !! a with Some x => if decide (a ∈ l) then nz x else m_storage m !! a | None => m_storage m !! a end)
    /\ m_code u = m_code m /\ m_prev u = m_prev m /\ m_accounts u = m_accounts m /\ m_acc_changes u = m_acc_changes m /\ m_st_changes u = m_st_changes m.
  Proof.
    induction l as [|b l IH]; intros m; cbv zeta.
    - split; [|auto]. intros a. cbn [fold_left]. destruct (default ∅ (m_st_changes m !! n) !! a); [|reflexivity]. destruct (decide (a ∈ [])) as [H|]; [inversion H|reflexivity].
    - cbn [fold_left]. destruct (IH (unwind_slot n m b)) as (H1 & H2 & H3 & H4 & H5 & H6). set (u := fold_left _ _ _) in *.
      assert (E : m_code (unwind_slot n m b) = m_code m /\ m_prev (unwind_slot n m b) = m_prev m /\ m_accounts (unwind_slot n m b) = m_accounts m
        /\ m_acc_changes (unwind_slot n m b) = m_acc_changes m /\ m_st_changes (unwind_slot n m b) = m_st_changes m
        /\ forall a, m_storage (unwind_slot n m b) !! a = match default ∅ (m_st_changes m !! n) !! a with Some x => if decide (a = b) then nz x else m_storage m !! a | None => m_storage m !! a end).
      { unfold unwind_slot. destruct (m_st_changes m !! n) as [ch|] eqn:En; cbn [mbind option_bind default from_option id].
        - destruct (ch !! b) as [v|] eqn:Eb; cbn; repeat split; intros a.
          + rewrite put_lookup. destruct (decide (a = b)) as [->|Na]; [now rewrite Eb|]. destruct (ch !! a); reflexivity.
          + destruct (decide (a = b)) as [->|Na]; [now rewrite Eb|]. destruct (ch !! a); reflexivity.
        - repeat split; try (intros a; rewrite lookup_empty); reflexivity. }
      destruct E as (E1 & E2 & E3 & E4 & E5 & E6). repeat split; try congruence. intros a. rewrite H1, E5, E6. destruct (default ∅ (m_st_changes m !! n) !! a) as [x|]; [|reflexivity].
      destruct (decide (a ∈ l)) as [Hl|Hl], (decide (a ∈ b :: l)) as [Hb|Hb], (decide (a = b)) as [Hab|Hab]; try reflexivity; exfalso; set_solver.
  Qed.
  Lemma unwind_effect m n aord sord : unwind_order_ok m n aord sord -> let u := unwind_state_changes m n aord sord in
    (forall a, m_accounts u !! a = match default ∅ (m_acc_changes m !! n) !! a with Some x => x | None => m_accounts m !! a end)
    /\ (forall key, m_storage u !! key = match default ∅ (m_st_changes m !! n) !! key with Some x => nz x | None => m_storage m !! key end)
    /\ m_code u = m_code m /\ m_prev u = m_prev m /\ m_acc_changes u = m_acc_changes m /\ m_st_changes u = m_st_changes m.
  Proof.
    intros (Oa & Os). cbv zeta. unfold unwind_state_changes. destruct (unwind_accounts_effect n aord m) as (A1 & A2 & A3 & A4 & A5 & A6). set (m1 := fold_left (unwind_account n) aord m) in *.
    destruct (unwind_slots_effect n sord m1) as (B1 & B2 & B3 & B4 & B5 & B6). set (u := fold_left _ _ _) in *. repeat split; try congruence.
    - intros a. rewrite B4, A1. destruct (default ∅ (m_acc_changes m !! n) !! a) as [x|] eqn:E; [|reflexivity]. destruct (decide (a ∈ aord)) as [|H]; [reflexivity|]. exfalso. apply H.
      rewrite Oa. apply elem_of_elements, elem_of_dom. eexists; eassumption.
    - intros key. rewrite B1, A6, A4. destruct (default ∅ (m_st_changes m !! n) !! key) as [x|] eqn:E; [|reflexivity]. destruct (decide (key ∈ sord)) as [|H]; [reflexivity|]. exfalso. apply H.
      rewrite Os. apply elem_of_elements, elem_of_dom. eexists; eassumption.
  Qed.

  Lemma munwind_app l1 : forall m l2 m3, munwind m (l1 ++ l2) m3 -> exists m2, munwind m l1 m2 /\ munwind m2 l2 m3.
  Proof.
    induction l1 as [|n l1 IH]; intros m l2 m3 H; [exists m; split; [constructor|exact H]|]. cbn in H. inversion H as [|m0 n0 r0 ao so m20 Ho Hr]; subst.
    destruct (IH _ _ _ Hr) as (m2 & H1 & H2). exists m2. split; [econstructor; eassumption|exact H2].
  Qed.

  Lemma unwind_blocks blocks : forall room m past w vss past2 w2 vss' m2 m3, mem_ok keccak code_of room m past w -> total_ops blocks <= room ->
    (forall c, In c (flat_map op_code (concat (map snd blocks))) -> code_of (keccak c) = c) ->
    replay keccak past w blocks vss past2 w2 -> mreplay keccak m blocks vss' m2 -> NoDup (map fst blocks) -> munwind m2 (rev (map fst blocks)) m3 ->
    m_accounts m3 = m_accounts m /\ m_storage m3 = m_storage m /\ m_prev m3 = m_prev m2 /\ m_code m3 = m_code m2
    /\ (forall h, h <> kEmptyHash -> let code := default [] (m_code m2 !! h) in code = default [] (m_code m !! h) \/ code = code_of h)
    /\ (forall a q, past a = true -> q <= default 0 (m_prev m !! a) -> (forall c, m_accounts m !! a = Some c -> a_incarnation c <> 0 -> q <= a_incarnation c) -> q <= default 0 (m_prev m2 !! a))
    /\ (forall k, ~ In k (map fst blocks) -> m_acc_changes m3 !! k = m_acc_changes m !! k /\ m_st_changes m3 !! k = m_st_changes m !! k).
  Proof.
    induction blocks as [|[n ops] rest IH]; intros room m past w vss past2 w2 vss' m2 m3 Hm Hlen Hcode Hr Hmr Hnd Hu.
    - inversion Hmr; subst. cbn in Hu. inversion Hu; subst. repeat split; auto.
    - inversion Hr as [|p0 w0 n0 ops0 rest0 vs vss0 w' sn p2 w2' Ha Hb Hrest]; subst. inversion Hmr as [|m0 n0 ops0 rest0 vs1 vss1 s sn1 sord oord m2' Hc Ho Hmrest]; subst.
      unfold total_ops in *. cbn [map concat snd fst] in *. rewrite app_length in *. rewrite flat_map_app in Hcode. inversion Hnd as [|x l Hn Hnd']; subst.
      destruct (block_step room m past w ops vs w' sn vs1 s sn1 n sord oord Hm ltac:(lia) ltac:(intros c Hc'; apply Hcode, in_or_app; now left) Ha Hb Hc Ho) as (E & Hm' & T1 & T2 & T3 & T4). subst vs1.
      cbn [rev] in Hu. apply munwind_app in Hu as (mx & Hu1 & Hu2). inversion Hu2 as [|mu0 nu0 ru0 ao so mu2 Hou Hru]; subst. inversion Hru; subst. clear Hru Hu2.
      destruct (IH _ _ _ _ _ _ _ _ _ mx Hm' ltac:(lia) ltac:(intros c Hc'; apply Hcode, in_or_app; now right) Hrest Hmrest Hnd' Hu1) as (U1 & U2 & U3 & U4 & U5 & U6 & U7).
      destruct (unwind_effect mx n ao so Hou) as (V1 & V2 & V3 & V4 & V5 & V6). set (m3 := unwind_state_changes mx n ao so) in *.
      destruct (write_effect s m n sord oord Ho) as (W1 & W2 & W3 & W4 & W5 & W6 & W7). set (m' := write_to_db s m n sord oord) in *.
      assert (Hn' : ~ In n (map fst rest)) by (intros Hin; apply Hn; now apply elem_of_list_In).
      destruct (U7 n Hn') as (U7a & U7b). split; [|split; [|split; [|split; [|split; [|split]]]]].
      + apply map_eq. intros a. rewrite V1, U7a, W5, U1, W1. destruct (objects s !! a) as [o|] eqn:Eo; cbn; [now apply T1|reflexivity].
      + apply map_eq. intros key. rewrite V2, U7b, W6, U2, W4. destruct (slot s key) as [cv|] eqn:Es; cbn; [now apply T2|reflexivity].
      + congruence.
      + congruence.
      + intros h Hne. cbv zeta. destruct (U5 h Hne) as [->| ->]; [apply (T3 h Hne)|now right].
      + intros a q Hpa Hq Hqc. destruct (T4 a q Hpa Hq Hqc) as (Q1 & Q2). apply (U6 a q); [unfold next_past; now rewrite Hpa|exact Q1|exact Q2].
      + intros k Hk. rewrite V5, V6. destruct (U7 k) as (-> & ->); [intros Hin; apply Hk; now right|]. apply W7. intros ->. apply Hk. now left.
  Qed.

  Theorem unwind_restores blocks room m past w vss past2 w2 vss' m2 m3 : mem_ok keccak code_of room m past w -> total_ops blocks <= room ->
    (forall c, In c (flat_map op_code (concat (map snd blocks))) -> code_of (keccak c) = c) ->
    replay keccak past w blocks vss past2 w2 -> mreplay keccak m blocks vss' m2 -> NoDup (map fst blocks) -> munwind m2 (rev (map fst blocks)) m3 ->
    m_accounts m3 = m_accounts m /\ m_storage m3 = m_storage m /\ (forall a c, m_accounts m !! a = Some c -> a_code_hash c <> kEmptyHash -> default [] (m_code m3 !! a_code_hash c) = default [] (m_code m !! a_code_hash c))
    /\ mem_ok keccak code_of (room - total_ops blocks) m3 past w.
  Proof.
    intros Hm Hlen Hcode Hr Hmr Hnd Hu. destruct (unwind_blocks blocks room m past w vss past2 w2 vss' m2 m3 Hm Hlen Hcode Hr Hmr Hnd Hu) as (U1 & U2 & U3 & U4 & U5 & U6 & _).
    destruct (replay_refines blocks room m past w vss past2 w2 Hm Hlen Hcode Hr vss' m2 Hmr) as (_ & Hm2).
    destruct Hm as [Hst (D1 & D2 & D3) Hinc Hnz]. destruct Hm2 as [_ (_ & _ & D3') _ _].
    assert (Code : forall a c, m_accounts m !! a = Some c -> a_code_hash c <> kEmptyHash -> default [] (m_code m3 !! a_code_hash c) = default [] (m_code m !! a_code_hash c)).
    { intros a c Ec Hne. rewrite U4. destruct (D2 a c Ec) as (_ & K & _). specialize (K Hne). cbn in K. destruct (U5 _ Hne) as [E|E]; rewrite E; [reflexivity|symmetry; exact K]. }
    split; [exact U1|]. split; [exact U2|]. split; [exact Code|]. constructor.
    - destruct Hst as (S1 & S2 & S). split; [|split; [|exact S]].
      + intros a. rewrite S1. cbn. now rewrite U1.
      + intros a k. rewrite S2. cbn. rewrite U1, U2. reflexivity.
    - split; [|split].
      + intros a k. cbn. rewrite U2. apply D1.
      + intros a c. cbn. rewrite U1. intros Ec. destruct (D2 a c Ec) as (K1 & K2 & K3). split; [exact K1|]. split; [|lia]. intros Hne. rewrite (Code a c Ec Hne). exact (K2 Hne).
      + intros a. cbn. rewrite U3. apply D3'.
    - intros a i k v. rewrite U1, U2, U3. intros Ev. destruct (Hinc a i k v Ev) as [H|(Hc & Hpa & Hp)]; [now left|]. right. split; [exact Hc|]. split; [exact Hpa|].
      apply (U6 a i Hpa Hp). intros c Ec Hne. exfalso. rewrite (contract_db m w a Hst) in Hc. unfold db_contract in Hc. cbn in Hc. rewrite Ec in Hc. now apply negb_false_iff, N.eqb_eq in Hc.
    - intros key v. rewrite U2. apply Hnz.
  Qed.
End Block.
