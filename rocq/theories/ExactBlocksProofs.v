(** Writing blocks back and unwinding them, for every history. *)
From stdpp Require Import gmap.
From Verif Require Import Base BaseFacts RlpModel TypesModel StateModel StateSpec MemBufModel MemBufSpec MemBufProofs ExactSpec ExactProofs ExactBlocksSpec.

(** ** An invariant of every history, lawful or not: objects know the account of the database, and codes that are not in the database are cached *)
Section Cached.
  Variable keccak : bytes -> bytes.
  Variable db : db_reader.
  Definition code_ok (cs : gmap bytes bytes) (a : N) (o : object) : Prop :=
    o_initial o = read_account db a /\
    forall c, o_current o = Some c -> a_code_hash c <> kEmptyHash ->
      (exists i, o_initial o = Some i /\ a_code_hash i = a_code_hash c /\ a_incarnation i = a_incarnation c) \/ is_Some (cs !! a_code_hash c).
  Definition dcode (cs : gmap bytes bytes) (d : delta) : Prop := match d with UpdateDelta a p => code_ok cs a p | _ => True end.
  Definition cinv (s : ibs) : Prop := (forall a o, objects s !! a = Some o -> code_ok (codes s) a o) /\ Forall (dcode (codes s)) (journal s).
  Definition more (s s' : ibs) : Prop := forall h, is_Some (codes s !! h) -> is_Some (codes s' !! h).

  Lemma code_ok_more s s' a o : more s s' -> code_ok (codes s) a o -> code_ok (codes s') a o.
  Proof. intros M (A & H). split; [exact A|]. intros c Ec Hne. destruct (H c Ec Hne) as [X|X]; [now left|right; now apply M]. Qed.
  Lemma dcode_more s s' d : more s s' -> dcode (codes s) d -> dcode (codes s') d.
  Proof. intros M. destruct d; cbn; auto. now apply code_ok_more. Qed.
  Lemma more_same s s' : codes s' = codes s -> more s s'.
  Proof. intros E h. now rewrite E. Qed.
  Lemma cinv_step s s' new : cinv s -> more s s' -> (forall a o, objects s' !! a = Some o -> objects s !! a = Some o \/ code_ok (codes s') a o) ->
    journal s' = new ++ journal s -> Forall (dcode (codes s')) new -> cinv s'.
  Proof.
    intros [L1 L2] M HO HJ HN. split.
    - intros a o Ha. destruct (HO a o Ha) as [H|H]; [|exact H]. eapply code_ok_more; [exact M|]. now apply L1.
    - rewrite HJ. apply Forall_app. split; [exact HN|]. eapply List.Forall_impl; [|exact L2]. intros d. now apply dcode_more.
  Qed.
  Lemma cinv_same s s' : cinv s -> objects s' = objects s -> codes s' = codes s -> journal s' = journal s -> cinv s'.
  Proof. intros H E1 E2 E3. eapply (cinv_step s s' []); [exact H|now apply more_same|rewrite E1; auto|exact E3|constructor]. Qed.
  Lemma insert_case (m : gmap N object) a o x p : <[a := o]> m !! x = Some p -> m !! x = Some p \/ x = a /\ p = o.
  Proof. destruct (decide (x = a)) as [->|N]; [rewrite lookup_insert; intros [= <-]; now right|rewrite lookup_insert_ne by congruence; now left]. Qed.
  Lemma cinv_insert s s' a o new : cinv s -> codes s' = codes s -> objects s' = <[a := o]> (objects s) -> code_ok (codes s) a o -> journal s' = new ++ journal s -> Forall (dcode (codes s)) new -> cinv s'.
  Proof.
    intros H EC EO Ho EJ HN. eapply (cinv_step s s' new); [exact H|now apply more_same| |exact EJ|now rewrite EC].
    intros x p. rewrite EO, EC. intros Hx. apply insert_case in Hx as [Hx|(-> & ->)]; auto.
  Qed.

  Lemma get_object_cinv s a o s' : cinv s -> get_object db s a = (o, s') -> cinv s' /\ codes s' = codes s /\ journal s' = journal s
    /\ match o with Some o => objects s' !! a = Some o | None => read_account db a = None end.
  Proof.
    intros H. unfold get_object. destruct (objects s !! a) as [ob|] eqn:E.
    - intros [= <- <-]. auto.
    - destruct (read_account db a) as [acc|] eqn:Er.
      + intros [= <- <-]. split; [|cbn; rewrite lookup_insert; auto]. eapply (cinv_insert s _ a _ []); [exact H|reflexivity|reflexivity| |reflexivity|constructor].
        split; [symmetry; exact Er|]. cbn. intros c [= <-] _. left. exists acc. auto.
      + intros [= <- <-]. auto.
  Qed.
  Lemma default_ok cs a i : i = read_account db a -> code_ok cs a (mkObj i (Some account_default)).
  Proof. intros E. split; [exact E|]. cbn. intros c [= <-] H. exfalso. apply H. reflexivity. Qed.
  Lemma get_or_create_cinv s a o c s' : cinv s -> get_or_create_object db s a = (o, c, s') -> cinv s' /\ codes s' = codes s /\ code_ok (codes s) a o /\ o_current o = Some c.
  Proof.
    intros H. unfold get_or_create_object. destruct (get_object db s a) as [p s1] eqn:E. destruct (get_object_cinv _ _ _ _ H E) as (H1 & EC & EJ & Ho).
    destruct p as [p|].
    - pose proof (proj1 H1 a p Ho) as Hp. destruct (o_current p) as [c1|] eqn:Ec.
      + intros [= <- <- <-]. rewrite EC in Hp. auto.
      + intros [= <- <- <-]. assert (D : code_ok (codes s1) a (mkObj (o_initial p) (Some account_default))) by (apply default_ok, Hp). split; [|split; [exact EC|]]; [|rewrite <- EC; auto].
        eapply (cinv_insert s1 _ a _ [UpdateDelta a p]); [exact H1|reflexivity|reflexivity|exact D|reflexivity|constructor; [exact Hp|constructor]].
    - intros [= <- <- <-]. assert (D : code_ok (codes s1) a (mkObj None (Some account_default))) by (apply default_ok; now symmetry). split; [|split; [exact EC|]]; [|rewrite <- EC; auto].
      eapply (cinv_insert s1 _ a _ [CreateDelta a]); [exact H1|reflexivity|reflexivity|exact D|reflexivity|constructor; [exact I|constructor]].
  Qed.
  Lemma update_current_cinv s a f : cinv s -> (forall c, a_code_hash (f c) = a_code_hash c /\ a_incarnation (f c) = a_incarnation c) -> cinv (update_current db s a f).
  Proof.
    intros H Hf. unfold update_current. destruct (get_or_create_object db s a) as [[o c] s1] eqn:E. destruct (get_or_create_cinv _ _ _ _ _ H E) as (H1 & EC & Ho & Ec). rewrite <- EC in Ho.
    eapply (cinv_insert s1 _ a _ [UpdateDelta a o]); [exact H1|reflexivity|reflexivity| |reflexivity|constructor; [exact Ho|constructor]].
    destruct Ho as (A & B). split; [exact A|]. cbn. intros c' [= <-]. destruct (Hf c) as (-> & ->). exact (B c Ec).
  Qed.
  Lemma set_code_cinv s a code : cinv s -> cinv (set_code keccak db s a code).
  Proof.
    intros H. unfold set_code, update_current. destruct (get_or_create_object db s a) as [[o c] s1] eqn:E. destruct (get_or_create_cinv _ _ _ _ _ H E) as (H1 & EC & Ho & Ec). rewrite <- EC in Ho.
    set (o' := mkObj (o_initial o) (Some (with_code_hash c (keccak code)))).
    assert (G : forall cs, (forall h, is_Some (codes s1 !! h) -> is_Some (cs !! h)) -> is_Some (cs !! keccak code) -> cinv (set_codes (set_objects (push s1 (UpdateDelta a o)) (<[a := o']> (objects s1))) cs)).
    { intros cs Hm Hk. eapply (cinv_step s1 _ [UpdateDelta a o]); [exact H1|exact Hm| |reflexivity|].
      - cbn. intros x p Hx. apply insert_case in Hx as [Hx|(-> & ->)]; [now left|right]. split; [exact (proj1 Ho)|]. cbn. intros c' [= <-] _. right. exact Hk.
      - constructor; [|constructor]. cbn. split; [exact (proj1 Ho)|]. intros c' Ec' Hne. destruct (proj2 Ho c' Ec' Hne) as [X|X]; [now left|right; now apply Hm]. }
    cbn [codes set_objects push set_journal]. destruct (codes s1 !! keccak code) as [x|] eqn:Ex.
    - specialize (G (codes s1) ltac:(auto) ltac:(rewrite Ex; now eexists)). exact G.
    - apply G.
      + intros h Hh. destruct (decide (h = keccak code)) as [->|N]; [rewrite lookup_insert; now eexists|now rewrite lookup_insert_ne by congruence].
      + rewrite lookup_insert. now eexists.
  Qed.
  Lemma touch_cinv s a : cinv s -> cinv (touch s a).
  Proof.
    intros H. unfold touch. destruct (_ && _).
    - eapply (cinv_step s _ [TouchDelta a]); [exact H|now apply more_same|cbn; auto|reflexivity|constructor; [exact I|constructor]].
    - now apply cinv_same with s.
  Qed.
  Lemma set_storages_cinv s st : cinv s -> cinv (set_storages s st).
  Proof. intros H. now apply cinv_same with s. Qed.
  Lemma get_storage_cinv s a k b v s' : cinv s -> get_storage db s a k b = (v, s') -> cinv s'.
  Proof.
    intros H. unfold get_storage. destruct (get_object db s a) as [p s1] eqn:E. destruct (get_object_cinv _ _ _ _ H E) as (H1 & _).
    destruct p as [p|]; [|now intros [= _ <-]]. destruct (o_current p) as [c|]; [|now intros [= _ <-]].
    destruct (if b then None else _); [intros [= _ <-]; now apply set_storages_cinv|]. destruct (st_committed _ !! k); [intros [= _ <-]; now apply set_storages_cinv|].
    destruct (match o_initial p with Some i => _ | None => true end); intros [= _ <-]; repeat apply set_storages_cinv; exact H1.
  Qed.
  Lemma set_storage_cinv s a k v : cinv s -> cinv (set_storage db s a k v).
  Proof.
    intros H. unfold set_storage, get_current_storage. destruct (get_storage db s a k false) as [prev s1] eqn:E. pose proof (get_storage_cinv _ _ _ _ _ _ H E) as H1.
    destruct (prev =? v); [exact H1|]. eapply (cinv_step s1 _ [StorageChangeDelta a k prev]); [exact H1|now apply more_same|cbn; auto|reflexivity|constructor; [exact I|constructor]].
  Qed.
  Lemma create_cinv s a : cinv s -> cinv (create_contract db s a).
  Proof.
    intros H. unfold create_contract. destruct (get_object db s a) as [p s1] eqn:E. destruct (get_object_cinv _ _ _ _ H E) as (H1 & EC & EJ & Ho).
    set (o' := mkObj _ _). set (s2 := match p with Some p => push s1 (UpdateDelta a p) | None => push s1 (CreateDelta a) end).
    assert (H2 : cinv s2 /\ objects s2 = objects s1 /\ codes s2 = codes s1).
    { unfold s2. destruct p as [p|]; (split; [|split; reflexivity]).
      - eapply (cinv_step s1 _ [UpdateDelta a p]); [exact H1|now apply more_same|cbn; auto|reflexivity|constructor; [exact (proj1 H1 a p Ho)|constructor]].
      - eapply (cinv_step s1 _ [CreateDelta a]); [exact H1|now apply more_same|cbn; auto|reflexivity|constructor; [exact I|constructor]]. }
    assert (Ho' : forall cs, code_ok cs a o').
    { intros cs. unfold o'. split; cbn [o_initial o_current].
      - destruct p as [p|]; [exact (proj1 (proj1 H1 a p Ho))|now symmetry].
      - intros c [= <-] X. exfalso. now apply X. }
    destruct H2 as (H2 & E2 & E3). clearbody s2 o'. set (s3 := set_objects s2 _).
    assert (H3 : cinv s3) by (eapply (cinv_insert s2 _ a o' []); [exact H2|reflexivity|reflexivity|apply Ho'|reflexivity|constructor]).
    destruct (storages s3 !! a) as [st|].
    - eapply (cinv_step s3 _ [StorageWipeDelta a st]); [exact H3|now apply more_same|cbn; auto|reflexivity|constructor; [exact I|constructor]].
    - eapply (cinv_step s3 _ [StorageCreateDelta a]); [exact H3|now apply more_same|cbn; auto|reflexivity|constructor; [exact I|constructor]].
  Qed.
  Lemma destruct_cinv s a : cinv s -> cinv (destruct_ db s a).
  Proof.
    intros H. unfold destruct_. set (s0 := set_storages s _). assert (H0 : cinv s0) by now apply set_storages_cinv.
    destruct (get_object db s0 a) as [p s1] eqn:E. destruct (get_object_cinv _ _ _ _ H0 E) as (H1 & _ & _ & Ho). destruct p as [p|]; [|exact H1].
    eapply (cinv_insert s1 _ a _ []); [exact H1|reflexivity|reflexivity| |reflexivity|constructor]. split; [exact (proj1 (proj1 H1 a p Ho))|]. cbn. discriminate.
  Qed.
  Lemma revert_all_cinv l : forall s, (forall a o, objects s !! a = Some o -> code_ok (codes s) a o) -> Forall (dcode (codes s)) l ->
    (forall a o, objects (fold_left revert_delta l s) !! a = Some o -> code_ok (codes (fold_left revert_delta l s)) a o) /\ codes (fold_left revert_delta l s) = codes s.
  Proof.
    induction l as [|d t IH]; intros s H HF; [split; [exact H|reflexivity]|]. inversion HF as [|? ? Hd Ht]; subst. cbn [fold_left].
    assert (E : codes (revert_delta s d) = codes s) by (destruct d; reflexivity). destruct (IH (revert_delta s d)) as (A & B).
    - rewrite E. intros a o. destruct d; cbn [revert_delta objects set_objects set_self_destructs set_touched set_storages set_accessed_addresses set_accessed_keys]; try apply H.
      + intros Hx. apply lookup_delete_Some in Hx as (_ & Hx). now apply H.
      + intros Hx. apply insert_case in Hx as [Hx|(-> & ->)]; [now apply H|exact Hd].
    - now rewrite E.
    - split; [exact A|congruence].
  Qed.
  Lemma revert_cinv s n : cinv s -> cinv (revert_to_snapshot s n).
  Proof.
    intros [H1 H2]. unfold revert_to_snapshot. set (m := (length (journal s) - journal_size n)%nat).
    rewrite <- (take_drop m (journal s)) in H2. apply Forall_app in H2 as (Ha & Hb). destruct (revert_all_cinv (take m (journal s)) s H1 Ha) as (H3 & G). split; [exact H3|].
    cbn. rewrite G. exact Hb.
  Qed.
  Lemma cstep_cinv x o : cinv (fst x) -> cinv (fst (snd (cstep keccak db x o))).
  Proof.
    destruct x as [s sn]. cbn [fst]. intros H. destruct o; cbn [cstep fst snd].
    - unfold exists_. destruct (get_object db s a) eqn:E. eapply get_object_cinv; eassumption.
    - unfold is_dead. destruct (get_object db s a) eqn:E. eapply get_object_cinv; eassumption.
    - unfold get_balance. destruct (get_object db s a) eqn:E. eapply get_object_cinv; eassumption.
    - unfold get_nonce. destruct (get_object db s a) eqn:E. eapply get_object_cinv; eassumption.
    - unfold get_code. destruct (get_object db s a) as [p s1] eqn:E. destruct (get_object_cinv _ _ _ _ H E) as (H1 & _). destruct (current_of p) as [c|]; [|exact H1]. destruct (bytes_eqb _ _); [exact H1|].
      destruct (codes s1 !! _) eqn:Ec; [exact H1|]. cbn [snd]. eapply (cinv_step s1 _ []); [exact H1| |cbn; auto|reflexivity|constructor].
      intros h Hh. cbn. destruct (decide (h = a_code_hash c)) as [->|N]; [rewrite lookup_insert; now eexists|now rewrite lookup_insert_ne by congruence].
    - unfold get_code_hash. destruct (get_object db s a) eqn:E. eapply get_object_cinv; eassumption.
    - unfold get_current_storage. destruct (get_storage db s a k false) eqn:E. eapply get_storage_cinv; eassumption.
    - unfold get_original_storage. destruct (get_storage db s a k true) eqn:E. eapply get_storage_cinv; eassumption.
    - now apply create_cinv.
    - apply touch_cinv. apply update_current_cinv; [exact H|split; reflexivity].
    - apply touch_cinv. apply update_current_cinv; [exact H|split; reflexivity].
    - apply touch_cinv. apply update_current_cinv; [exact H|split; reflexivity].
    - apply update_current_cinv; [exact H|split; reflexivity].
    - now apply set_code_cinv.
    - now apply set_storage_cinv.
    - unfold access_account. cbn [snd]. destruct (bool_decide _); [|now apply cinv_same with s].
      eapply (cinv_step s _ [AccountAccessDelta a]); [exact H|now apply more_same|cbn; auto|reflexivity|constructor; [exact I|constructor]].
    - unfold access_storage. cbn [snd]. destruct (bool_decide _); [|now apply cinv_same with s].
      eapply (cinv_step s _ [StorageAccessDelta a k]); [exact H|now apply more_same|cbn; auto|reflexivity|constructor; [exact I|constructor]].
    - now apply touch_cinv.
    - unfold record_suicide. destruct (bool_decide _); [|now apply cinv_same with s].
      eapply (cinv_step s _ [SuicideDelta a]); [exact H|now apply more_same|cbn; auto|reflexivity|constructor; [exact I|constructor]].
    - now apply cinv_same with s.
    - now apply cinv_same with s.
    - now apply cinv_same with s.
    - exact H.
    - exact H.
    - exact H.
    - exact H.
    - destruct (nth_error sn i); [now apply revert_cinv|exact H].
    - now apply cinv_same with s.
    - now apply destruct_cinv.
    - unfold destruct_suicides. revert s H. induction order as [|a t IH]; intros s H; [exact H|]. apply IH. now apply destruct_cinv.
    - unfold destruct_touched_dead. revert s H. induction order as [|a t IH]; intros s H; [exact H|]. cbn [fold_left]. apply IH. unfold is_dead. destruct (get_object db s a) as [p s1] eqn:E.
      destruct (get_object_cinv _ _ _ _ H E) as (H1 & _). destruct (match current_of p with Some _ => _ | None => _ end); [now apply destruct_cinv|exact H1].
    - destruct H as [H _]. split; [exact H|constructor].
  Qed.
  Lemma crun_cinv ops : forall x, cinv (fst x) -> cinv (fst (snd (crun keccak db x ops))).
  Proof.
    induction ops as [|o t IH]; intros x H; [exact H|]. cbn [crun]. pose proof (cstep_cinv x o H) as H1. destruct (cstep keccak db x o) as [v x1]. specialize (IH x1 H1). destruct (crun keccak db x1 t) as [vs x2]. exact IH.
  Qed.
  Lemma cinv_new : cinv ibs_new.
  Proof. split; [intros a o; cbn; rewrite lookup_empty; discriminate|constructor]. Qed.
  Lemma block_cinv ops vs s sn : crun keccak db (ibs_new, []) ops = (vs, (s, sn)) -> cinv s.
  Proof. intros E. pose proof (crun_cinv ops (ibs_new, []) cinv_new) as H. now rewrite E in H. Qed.
End Cached.

(** ** One block *)
Section Block.
  Variables keccak code_of : bytes -> bytes.

  Lemma commits_sound db w db' : db_sound code_of db -> commits code_of db w db' -> leaves_sound db w -> db_sound code_of db'.
  Proof.
    intros (D1 & D2) C (L1 & L2). split.
    - intros a k. destruct (x_acct w a) as [c|] eqn:Ec.
      + destruct (N.eq_dec (a_incarnation c) 0) as [E0|E0].
        * destruct (co_storage _ _ _ _ C a c k Ec) as [H|(_ & _ & H)]; rewrite E0 in H; rewrite H; [now apply L1 with c|apply D1].
        * rewrite (co_others _ _ _ _ C); [apply D1|]. intros c' Ec'. congruence.
      + rewrite (co_others _ _ _ _ C); [apply D1|]. intros c' Ec'. congruence.
    - intros a c Ea Hne. rewrite (co_accounts _ _ _ _ C) in Ea. apply (co_code _ _ _ _ C a c Ea Hne). intros i Hi Ei. now apply (L2 a i c).
  Qed.

  Variables (m : membuf) (n : N) (ops : list op) (vs vs' : list obs) (w : xworld) (sn : list xworld) (s : ibs) (sn' : list snapshot) (sord : list (N * list N)) (oord : list N).
  Hypothesis Hdb : db_sound code_of (mem_reader m).
  Hypothesis Hcodes : codes_apart keccak code_of ops.
  Hypothesis Hx : xrun keccak code_of (mem_reader m) (xworld_of (mem_reader m), []) ops = Some (vs, (w, sn)).
  Hypothesis Hc : crun keccak (mem_reader m) (ibs_new, []) ops = (vs', (s, sn')).
  Hypothesis Ho : order_ok s sord oord.

  Lemma block_exact : vs' = vs /\ commits code_of (mem_reader m) w (mem_reader (write_to_db s m n sord oord))
    /\ (forall a i k cv, slot s (a, i, k) = Some cv -> exists c, x_acct w a = Some c /\ a_incarnation c = i
          /\ (continues (mem_reader m) a c -> cv_initial cv = default 0 (m_storage m !! (a, i, k))) /\ (~ continues (mem_reader m) a c -> cv_initial cv = 0)).
  Proof.
    destruct Hcodes as (Hce & Hcd). destruct (exact_refines keccak code_of (mem_reader m) Hdb Hce ops vs (w, sn) Hcd Hx) as ([s1 sn1] & E & [Hi HR _]).
    rewrite E in Hc. injection Hc as <- <- <-. split; [reflexivity|]. cbn [fst] in *.
    pose proof (crun_linv keccak (mem_reader m) ops (ibs_new, []) (linv_new _)) as HL. rewrite E in HL. cbn [fst snd] in HL. destruct HL as [HL _].
    pose proof (block_cinv keccak (mem_reader m) _ _ _ _ E) as [HC _].
    set (ox := objx (mem_reader m) s1).
    assert (Oinit : forall a, o_initial (ox a) = m_accounts m !! a) by (intros a; apply (inv_obj _ _ _ Hi a)).
    assert (Ocur : forall a, o_current (ox a) = match objects s1 !! a with Some o => o_current o | None => m_accounts m !! a end).
    { intros a. unfold ox, objx. destruct (objects s1 !! a); [reflexivity|]. unfold load. cbn. now destruct (m_accounts m !! a). }
    pose proof (r_0 _ _ _ HR) as H0.
    assert (Xa : forall a, x_acct w a = o_current (ox a)) by apply (r_acct _ _ _ H0).
    assert (Slot : forall a i k cv, slot s1 (a, i, k) = Some cv -> exists c, x_acct w a = Some c /\ a_incarnation c = i /\ st_committed (storage_of s1 a) !! k = Some cv).
    { intros a i k cv. unfold slot, cur. destruct (objects s1 !! a) as [o|] eqn:Eo; cbn; [|discriminate]. destruct (o_current o) as [c|] eqn:Ec; [|discriminate].
      destruct (N.eqb_spec (a_incarnation c) i) as [Hi'|]; [|discriminate]. intros H. exists c. rewrite Xa, Ocur, Eo. auto. }
    assert (Def : forall a c k, x_acct w a = Some c -> (continues (mem_reader m) a c -> defx (mem_reader m) (ox a) a k = default 0 (m_storage m !! (a, a_incarnation c, k)))
      /\ (~ continues (mem_reader m) a c -> defx (mem_reader m) (ox a) a k = 0)).
    { intros a c k Ec. unfold defx. rewrite Oinit, <- Xa, Ec. unfold continues. cbn [mem_reader read_account]. destruct (m_accounts m !! a) as [i|]; (split; [intros (i' & [= <-] & Hin)|intros H]).
      - rewrite Hin, N.eqb_refl. reflexivity.
      - destruct (N.eqb_spec (a_incarnation i) (a_incarnation c)) as [e|]; [|reflexivity]. exfalso. apply H. now exists i.
      - reflexivity. }
    split.
    - destruct (write_effect s1 m n sord oord Ho) as (W1 & W2 & W3 & W4 & W5 & W6 & W7). set (m' := write_to_db s1 m n sord oord) in *. constructor.
      + intros a. cbn. rewrite W1, Xa, Ocur. reflexivity.
      + intros a. cbn. rewrite W2, Xa, <- Oinit. unfold ox, objx. destruct (objects s1 !! a) as [[[i|] [c|]]|]; try reflexivity. unfold load. cbn. destruct (m_accounts m !! a); reflexivity.
      + intros a i k H. cbn. rewrite W4. destruct (slot s1 (a, i, k)) as [cv|] eqn:Es; [|reflexivity]. exfalso. destruct (Slot _ _ _ _ Es) as (c & Ec & Ei & _). exact (H c Ec Ei).
      + intros a c k Ec. cbn. rewrite W4. rewrite <- (r_orig _ _ _ H0). fold ox. unfold origx. destruct (slot s1 (a, a_incarnation c, k)) as [cv|] eqn:Es.
        * left. destruct (Slot _ _ _ _ Es) as (c' & Ec' & _ & Ecv). rewrite Ecv. unfold nz. destruct (N.eqb_spec (cv_original cv) 0) as [->|]; reflexivity.
        * assert (En : st_committed (storage_of s1 a) !! k = None).
          { destruct (st_committed (storage_of s1 a) !! k) as [cv|] eqn:Ecv; [exfalso|reflexivity].
            assert (Sn : seen (mem_reader m) s1 a). { apply HL. unfold storage_of in Ecv. destruct (storages s1 !! a); [now eexists|]. cbn in Ecv. rewrite lookup_empty in Ecv. discriminate. }
            unfold slot, cur in Es. rewrite Xa, Ocur in Ec. destruct (objects s1 !! a) as [o|] eqn:Eo.
            - cbn in Es. rewrite Ec, N.eqb_refl in Es. congruence.
            - destruct Sn as [Sn|Sn]; [cbn in Sn; congruence|]. rewrite Eo in Sn. now destruct Sn. }
          rewrite En. destruct (Def a c k Ec) as (Dy & Dn).
          assert (Dec : continues (mem_reader m) a c \/ ~ continues (mem_reader m) a c).
          { unfold continues. destruct (read_account (mem_reader m) a) as [i|]; [|right; intros (i & [=] & _)].
            destruct (N.eq_dec (a_incarnation i) (a_incarnation c)) as [e|ne]; [left; now exists i|right]. intros (i' & [= <-] & Hin). contradiction. }
          destruct Dec as [D|D]; [left; symmetry; now apply Dy|right]. auto.
      + intros a c Ec Hne Hold. cbn. rewrite W3. destruct (existsb (writes_code s1 (a_code_hash c)) oord) eqn:Ee; cbn [default from_option id].
        * pose proof (inv_codes _ _ _ Hi) as Hcs. apply existsb_exists in Ee as (b & _ & Hb). unfold writes_code in Hb. destruct (objects s1 !! b) as [o|] eqn:Eo; [|discriminate].
          destruct (o_current o) as [cb|] eqn:Eb; [|discriminate]. apply andb_true_iff in Hb as [Hb Hh]. apply andb_true_iff in Hb as [_ Hb]. apply bytes_eqb_eq in Hh.
          destruct (HC b o Eo) as (_ & J). rewrite <- Hh in *. destruct (J cb Eb Hne) as [(i & Ei & _ & Ein)|(code & Hcode)].
          { exfalso. rewrite Ei in Hb. apply negb_true_iff, N.eqb_neq in Hb. contradiction. }
          transitivity code; [exact (f_equal (default []) Hcode)|now apply Hcs].
        * destruct Hdb as (_ & D2). rewrite Xa, Ocur in Ec. destruct (objects s1 !! a) as [o|] eqn:Eo; [|exact (D2 a c Ec Hne)].
          assert (Eoa : ox a = o) by (unfold ox, objx; now rewrite Eo). pose proof (Oinit a) as Hin. rewrite Eoa in Hin.
          assert (Wn : writes_code s1 (a_code_hash c) a = false).
          { destruct (writes_code s1 (a_code_hash c) a) eqn:Ew; [|reflexivity]. rewrite <- Ee. symmetry. apply existsb_exists. exists a. split; [|exact Ew].
            apply elem_of_list_In. destruct Ho as (_ & _ & ->). apply elem_of_elements, elem_of_dom. eexists; eassumption. }
          unfold writes_code in Wn. rewrite Eo, Ec, bytes_eqb_refl, andb_true_r in Wn. replace (bytes_eqb (a_code_hash c) kEmptyHash) with false in Wn
            by (symmetry; destruct (bytes_eqb (a_code_hash c) kEmptyHash) eqn:Eq; [apply bytes_eqb_eq in Eq; contradiction|reflexivity]).
          cbn [negb andb] in Wn. destruct (o_initial o) as [i|] eqn:Ei; [|discriminate]. apply negb_false_iff, N.eqb_eq in Wn. symmetry in Hin.
          pose proof (Hold i Hin Wn) as Eh. rewrite <- Eh. apply (D2 a i Hin). now rewrite Eh.
    - intros a i k cv Es. destruct (Slot _ _ _ _ Es) as (c & Ec & <- & Ecv). exists c. split; [exact Ec|]. split; [reflexivity|].
      destruct (Def a c k Ec) as (Dy & Dn). destruct (inv_st _ _ _ Hi a) as (_ & I). fold ox in I. rewrite (I k cv Ecv). auto.
  Qed.
End Block.

(** ** Several blocks *)
Section Blocks.
  Variables keccak code_of : bytes -> bytes.

  Theorem blocks_exact fresh blocks : forall m vss m2, lawful_blocks keccak code_of fresh m blocks -> db_sound code_of (mem_reader m) -> mreplay keccak m blocks vss m2 ->
    xreplay keccak code_of (mem_reader m) blocks vss (mem_reader m2) /\ db_sound code_of (mem_reader m2).
  Proof.
    induction blocks as [|[n ops] rest IH]; intros m vss m2 Hl Hdb Hm; inversion Hm as [|m0 n0 ops0 rest0 vs vss0 s sn sord oord m2' Hc Ho Hrest]; subst; [split; [constructor|exact Hdb]|].
    inversion Hl as [|m0 n0 ops0 rest0 L1 L2 L3 L4]; subst.
    destruct (exact_runs keccak code_of (mem_reader m) Hdb (proj1 L2) ops (proj2 L2) L1) as (vx & [w snx] & Ex).
    destruct (block_exact keccak code_of m n ops vx vs w snx s sn sord oord Hdb L2 Ex Hc Ho) as (-> & C & _).
    destruct (L3 _ _ _ Ex) as (Ls & _). pose proof (commits_sound code_of _ _ _ Hdb C Ls) as Hdb'.
    destruct (IH _ _ _ (L4 _ _ _ _ _ Hc Ho) Hdb' Hrest) as (Hx & Hd). split; [|exact Hd]. exact (xreplay_cons _ _ _ n _ _ _ _ _ _ _ _ Ex C Hx).
  Qed.

  (** ** Unwinding *)
  Lemma unwound_accounts blocks : forall m vss m2 m3, mreplay keccak m blocks vss m2 -> NoDup (map fst blocks) -> munwind m2 (rev (map fst blocks)) m3 ->
    m_accounts m3 = m_accounts m /\ (forall k, ~ In k (map fst blocks) -> m_acc_changes m3 !! k = m_acc_changes m !! k /\ m_st_changes m3 !! k = m_st_changes m !! k).
  Proof.
    induction blocks as [|[n ops] rest IH]; intros m vss m2 m3 Hm Hnd Hu.
    - inversion Hm; subst. cbn in Hu. inversion Hu; subst. auto.
    - inversion Hm as [|m0 n0 ops0 rest0 vs vss0 s sn sord oord m2' Hc Ho Hrest]; subst. cbn [map fst] in *. inversion Hnd as [|x l Hn Hnd']; subst.
      cbn [rev] in Hu. apply munwind_app in Hu as (mx & Hu1 & Hu2). inversion Hu2 as [|mu0 nu0 ru0 ao so mu2 Hou Hru]; subst. inversion Hru; subst. clear Hru Hu2.
      destruct (IH _ _ _ mx Hrest Hnd' Hu1) as (U1 & U7). destruct (unwind_effect (fun _ => kEmptyHash) (fun _ => []) eq_refl eq_refl mx n ao so Hou) as (V1 & V2 & V3 & V4 & V5 & V6). set (m3 := unwind_state_changes mx n ao so) in *.
      destruct (write_effect s m n sord oord Ho) as (W1 & W2 & W3 & W4 & W5 & W6 & W7). set (m' := write_to_db s m n sord oord) in *.
      destruct (U7 n Hn) as (U7a & U7b). pose proof (block_cinv keccak (mem_reader m) _ _ _ _ Hc) as [HC _]. split.
      + apply map_eq. intros a. rewrite V1, U7a, W5, U1, W1. destruct (objects s !! a) as [o|] eqn:Eo; cbn; [|reflexivity]. exact (proj1 (HC a o Eo)).
      + intros k Hk. rewrite V5, V6. destruct (U7 k) as (-> & ->); [intros Hin; apply Hk; now right|]. apply W7. intros ->. apply Hk. now left.
  Qed.

  Lemma no_zeros_block s m n sord oord : order_ok s sord oord -> no_zeros m -> no_zeros (write_to_db s m n sord oord).
  Proof.
    intros Ho Hz key. destruct (write_effect s m n sord oord Ho) as (_ & _ & _ & W4 & _). rewrite W4. destruct (slot s key) as [cv|]; [|apply Hz].
    unfold nz. destruct (N.eqb_spec (cv_original cv) 0); [discriminate|]. intros [= E]. contradiction.
  Qed.
  Lemma unwound_storage blocks : forall m vss m2 m3, lawful_blocks keccak code_of true m blocks -> db_sound code_of (mem_reader m) -> no_zeros m ->
    mreplay keccak m blocks vss m2 -> NoDup (map fst blocks) -> munwind m2 (rev (map fst blocks)) m3 -> m_storage m3 = m_storage m.
  Proof.
    induction blocks as [|[n ops] rest IH]; intros m vss m2 m3 Hl Hdb Hz Hm Hnd Hu.
    - inversion Hm; subst. cbn in Hu. inversion Hu; subst. auto.
    - inversion Hm as [|m0 n0 ops0 rest0 vs vss0 s sn sord oord m2' Hc Ho Hrest]; subst. cbn [map fst] in *. inversion Hnd as [|x l Hn Hnd']; subst.
      inversion Hl as [|m0 n0 ops0 rest0 L1 L2 L3 L4]; subst.
      destruct (exact_runs keccak code_of (mem_reader m) Hdb (proj1 L2) ops (proj2 L2) L1) as (vx & [w snx] & Ex).
      destruct (block_exact keccak code_of m n ops vx vs w snx s sn sord oord Hdb L2 Ex Hc Ho) as (-> & C & Hs).
      destruct (L3 _ _ _ Ex) as (Ls & Lu). specialize (Lu eq_refl). pose proof (commits_sound code_of _ _ _ Hdb C Ls) as Hdb'.
      cbn [rev] in Hu. apply munwind_app in Hu as (mx & Hu1 & Hu2). inversion Hu2 as [|mu0 nu0 ru0 ao so mu2 Hou Hru]; subst. inversion Hru; subst. clear Hru Hu2.
      pose proof (IH _ _ _ mx (L4 _ _ _ _ _ Hc Ho) Hdb' (no_zeros_block _ _ n _ _ Ho Hz) Hrest Hnd' Hu1) as U2. destruct (unwound_accounts _ _ _ _ mx Hrest Hnd' Hu1) as (_ & U7).
      destruct (unwind_effect (fun _ => kEmptyHash) (fun _ => []) eq_refl eq_refl mx n ao so Hou) as (V1 & V2 & V3 & V4 & V5 & V6). set (m3 := unwind_state_changes mx n ao so) in *.
      destruct (write_effect s m n sord oord Ho) as (W1 & W2 & W3 & W4 & W5 & W6 & W7). set (m' := write_to_db s m n sord oord) in *.
      destruct (U7 n Hn) as (U7a & U7b).
      apply map_eq. intros [[a i] k]. rewrite V2, U7b, W6, U2, W4. destruct (slot s (a, i, k)) as [cv|] eqn:Es; cbn; [|reflexivity].
      destruct (Hs a i k cv Es) as (c & Ec & <- & Hy & Hno). pose proof (Hz (a, a_incarnation c, k)) as Hzk.
      assert (Ev : cv_initial cv = default 0 (m_storage m !! (a, a_incarnation c, k))).
      { assert (Dec : continues (mem_reader m) a c \/ ~ continues (mem_reader m) a c).
        { unfold continues. destruct (read_account (mem_reader m) a) as [i|]; [|right; intros (i & [=] & _)].
          destruct (N.eq_dec (a_incarnation i) (a_incarnation c)) as [e|ne]; [left; now exists i|right]. intros (i' & [= <-] & Hin). contradiction. }
        destruct Dec as [D|D]; [now apply Hy|]. rewrite (Hno D). destruct (Lu a c k Ec) as [D'|D']; [contradiction|]. symmetry. exact D'. }
      rewrite Ev. unfold nz. destruct (m_storage m !! (a, a_incarnation c, k)) as [v|]; cbn; [|reflexivity]. destruct (N.eqb_spec v 0) as [->|]; [now destruct Hzk|reflexivity].
  Qed.
End Blocks.

Lemma write_back_exact keccak code_of m n ops s sn sord oord :
  db_sound code_of (mem_reader m) -> codes_apart keccak code_of ops -> lawful keccak (mem_reader m) (ibs_new, []) ops = true ->
  snd (crun keccak (mem_reader m) (ibs_new, []) ops) = (s, sn) -> order_ok s sord oord ->
  exists vs w snx, xrun keccak code_of (mem_reader m) (xworld_of (mem_reader m), []) ops = Some (vs, (w, snx))
    /\ commits code_of (mem_reader m) w (mem_reader (write_to_db s m n sord oord)).
Proof.
  intros Hdb Ha Hl Hc Ho. destruct (exact_runs keccak code_of (mem_reader m) Hdb (proj1 Ha) ops (proj2 Ha) Hl) as (vs & [w snx] & Ex). exists vs, w, snx. split; [exact Ex|].
  destruct (crun keccak (mem_reader m) (ibs_new, []) ops) as [vc x] eqn:E. cbn in Hc. subst x. now destruct (block_exact keccak code_of m n ops vs vc w snx s sn sord oord Hdb Ha Ex E Ho) as (_ & C & _).
Qed.
Lemma replay_exact keccak code_of fresh m blocks vss m2 :
  lawful_blocks keccak code_of fresh m blocks -> db_sound code_of (mem_reader m) -> mreplay keccak m blocks vss m2 ->
  xreplay keccak code_of (mem_reader m) blocks vss (mem_reader m2).
Proof. intros Hl Hd Hm. exact (proj1 (blocks_exact keccak code_of fresh blocks m vss m2 Hl Hd Hm)). Qed.
Lemma accounts_restored keccak m blocks vss m2 m3 :
  mreplay keccak m blocks vss m2 -> NoDup (map fst blocks) -> munwind m2 (rev (map fst blocks)) m3 -> m_accounts m3 = m_accounts m.
Proof. intros Hm Hn Hu. exact (proj1 (unwound_accounts keccak blocks m vss m2 m3 Hm Hn Hu)). Qed.
