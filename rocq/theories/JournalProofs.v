(** The journal of IntraBlockState undoes whatever was done since a snapshot. Unlike StateProofs, this needs no
    assumption on incarnations or codes: it is the basis for reasoning about EVM calls. *)
From stdpp Require Import gmap.
From Verif Require Import Base BaseFacts RlpModel TypesModel StateModel.

Section Journal.
  Variable keccak : bytes -> bytes.
  Variable db : db_reader.

  Definition loadx (a : N) : object :=
    match read_account db a with Some acc => mkObj (Some acc) (Some acc) | None => mkObj None None end.
  (** The object, the storage default, original and current value an observer would read. *)
  Definition obj (s : ibs) (a : N) : object := match objects s !! a with Some o => o | None => loadx a end.
  Definition deft (o : object) (a k : N) : N :=
    match o_initial o, o_current o with
    | Some i, Some c => if a_incarnation i =? a_incarnation c then read_storage db a (a_incarnation c) k else 0
    | _, _ => 0
    end.
  Definition orig (o : object) (st : storage) (a k : N) : N :=
    match st_committed st !! k with Some cv => cv_original cv | None => deft o a k end.
  Definition cur (o : object) (st : storage) (a k : N) : N :=
    match st_current st !! k with Some v => v | None => orig o st a k end.
  Definition originalv (s : ibs) (a k : N) : N := orig (obj s a) (storage_of s a) a k.
  Definition currentv (s : ibs) (a k : N) : N := cur (obj s a) (storage_of s a) a k.
  Definition live (s : ibs) (a : N) : Prop := o_current (obj s a) <> None.

  (** [same s s']: the same world and substate; address 3 may be touched in only one of them. *)
  Record same (s s' : ibs) : Prop := {
    same_obj : forall a, obj s' a = obj s a;
    same_cur : forall a k, currentv s' a k = currentv s a k;
    same_orig : forall a k, originalv s' a k = originalv s a k;
    same_sui : self_destructs s' = self_destructs s;
    same_touched : forall a, a <> 3 -> a ∈ touched s' <-> a ∈ touched s;
    same_addr : accessed_addresses s' = accessed_addresses s;
    same_keys : accessed_keys s' = accessed_keys s
  }.
  Lemma same_refl s : same s s.
  Proof. constructor; auto. Qed.
  Lemma same_sym s s' : same s s' -> same s' s.
  Proof. intros []. constructor; auto. intros a Ha. now rewrite same_touched0. Qed.
  Lemma same_trans a b c : same a b -> same b c -> same a c.
  Proof.
    intros [A1 A2 A3 A6 A7 A8 A9] [B1 B2 B3 B6 B7 B8 B9]. constructor; try congruence.
    intros x Hx. now rewrite B7, A7.
  Qed.

  Inductive jblock :=
  | JOne (d : delta)
  | JPair (d1 d2 : delta).  (* d2 is the newer *)
  Definition jdeltas (b : jblock) : list delta := match b with JOne d => [d] | JPair d1 d2 => [d2; d1] end.
  Definition jundo (s : ibs) (b : jblock) : ibs := fold_left revert_delta (jdeltas b) s.
  Definition goal (d : delta) (a : N) : object := match d with UpdateDelta _ p => p | _ => loadx a end.
  Definition okb (s : ibs) (b : jblock) : Prop :=
    match b with
    | JOne (CreateDelta a as d) | JOne (UpdateDelta a _ as d) => forall k, deft (goal d a) a k = deft (obj s a) a k
    | JOne (TouchDelta a) => a <> 3
    | JOne (StorageChangeDelta _ _ _) | JOne (SuicideDelta _) | JOne (StorageAccessDelta _ _) | JOne (AccountAccessDelta _) => True
    | JPair (CreateDelta a) (StorageWipeDelta b _) | JPair (UpdateDelta a _) (StorageWipeDelta b _)
    | JPair (CreateDelta a) (StorageCreateDelta b) | JPair (UpdateDelta a _) (StorageCreateDelta b) => a = b
    | _ => False
    end.
  Fixpoint okj (bl : list jblock) (s : ibs) : Prop :=
    match bl with [] => True | b :: t => okb s b /\ okj t (jundo s b) end.

  Lemma storage_insert s m b st a : storage_of (set_storages s (<[b := st]> m)) a = if decide (a = b) then st else default storage_empty (m !! a).
  Proof. unfold storage_of. cbn. destruct (decide (a = b)) as [->|E]; [now rewrite lookup_insert|]. now rewrite lookup_insert_ne by congruence. Qed.
  Lemma storage_delete s m b a : storage_of (set_storages s (delete b m)) a = if decide (a = b) then storage_empty else default storage_empty (m !! a).
  Proof. unfold storage_of. cbn. destruct (decide (a = b)) as [->|E]; [now rewrite lookup_delete|]. now rewrite lookup_delete_ne by congruence. Qed.
  Lemma obj_insert s b o a : obj (set_objects s (<[b := o]> (objects s))) a = if decide (a = b) then o else obj s a.
  Proof. unfold obj. cbn. destruct (decide (a = b)) as [->|E]; [now rewrite lookup_insert|]. now rewrite lookup_insert_ne by congruence. Qed.
  Lemma obj_delete s b a : obj (set_objects s (delete b (objects s))) a = if decide (a = b) then loadx a else obj s a.
  Proof. unfold obj. cbn. destruct (decide (a = b)) as [->|E]; [now rewrite lookup_delete|]. now rewrite lookup_delete_ne by congruence. Qed.
  Lemma orig_def o o' st a k : deft o a k = deft o' a k -> orig o st a k = orig o' st a k.
  Proof. unfold orig. intros E. destruct (st_committed st !! k); [reflexivity|exact E]. Qed.
  Lemma cur_def o o' st a k : deft o a k = deft o' a k -> cur o st a k = cur o' st a k.
  Proof. unfold cur. intros E. destruct (st_current st !! k); [reflexivity|]. now apply orig_def. Qed.

  Lemma okb_same s s' b : same s s' -> okb s b -> okb s' b.
  Proof.
    intros []. destruct b as [d|d1 d2]; cbn [okb]; [|exact id].
    destruct d; try exact id; intros H k; rewrite same_obj0; apply H.
  Qed.

  Definition paddr (d : delta) : N := match d with CreateDelta a | UpdateDelta a _ => a | _ => 0 end.
  Definition pst (d : delta) : storage := match d with StorageWipeDelta _ st => st | _ => storage_empty end.
  Lemma jpair_effect s d1 d2 : okb s (JPair d1 d2) ->
    (forall x, obj (jundo s (JPair d1 d2)) x = if decide (x = paddr d1) then goal d1 (paddr d1) else obj s x)
    /\ (forall x, storage_of (jundo s (JPair d1 d2)) x = if decide (x = paddr d1) then pst d2 else storage_of s x)
    /\ self_destructs (jundo s (JPair d1 d2)) = self_destructs s /\ touched (jundo s (JPair d1 d2)) = touched s
    /\ accessed_addresses (jundo s (JPair d1 d2)) = accessed_addresses s /\ accessed_keys (jundo s (JPair d1 d2)) = accessed_keys s.
  Proof.
    intros Hv. destruct d1; try contradiction; destruct d2; try contradiction; cbn [okb] in Hv; subst a0;
      cbn [paddr pst goal] in *; (split; [intros x; cbn [jundo jdeltas fold_left revert_delta]|split; [intros x; cbn [jundo jdeltas fold_left revert_delta]|]]);
      rewrite ?obj_delete, ?obj_insert; try (destruct (decide (x = a)) as [->|]; reflexivity); try (repeat split; reflexivity).
    all: try change (storage_of (set_objects ?s _) x) with (storage_of s x); rewrite ?storage_insert, ?storage_delete; reflexivity.
  Qed.

  Lemma jundo_same s s' b : same s s' -> okb s b -> same (jundo s b) (jundo s' b).
  Proof.
    intros Hs Hv. pose proof (okb_same s s' b Hs Hv) as Hv'. destruct Hs. unfold currentv, originalv in *.
    destruct b as [d|d1 d2].
    - destruct d; cbn [okb] in *; cbn [jundo jdeltas fold_left revert_delta]; try contradiction.
      + cbn [goal] in *. constructor; auto; unfold currentv, originalv; cbn [self_destructs touched accessed_addresses accessed_keys set_objects].
        * intros x. rewrite !obj_delete. destruct (decide (x = a)); auto.
        * intros x k. rewrite !obj_delete. change (storage_of (set_objects ?s _) x) with (storage_of s x). destruct (decide (x = a)) as [->|]; [|auto].
          rewrite (cur_def _ _ (storage_of s' a) _ _ (Hv' k)), (cur_def _ _ (storage_of s a) _ _ (Hv k)). apply same_cur0.
        * intros x k. rewrite !obj_delete. change (storage_of (set_objects ?s _) x) with (storage_of s x). destruct (decide (x = a)) as [->|]; [|auto].
          rewrite (orig_def _ _ (storage_of s' a) _ _ (Hv' k)), (orig_def _ _ (storage_of s a) _ _ (Hv k)). apply same_orig0.
      + cbn [goal] in *. constructor; auto; unfold currentv, originalv; cbn [self_destructs touched accessed_addresses accessed_keys set_objects].
        * intros x. rewrite !obj_insert. destruct (decide (x = a)); auto.
        * intros x k. rewrite !obj_insert. change (storage_of (set_objects ?s _) x) with (storage_of s x). destruct (decide (x = a)) as [->|]; [|auto].
          rewrite (cur_def _ _ (storage_of s' a) _ _ (Hv' k)), (cur_def _ _ (storage_of s a) _ _ (Hv k)). apply same_cur0.
        * intros x k. rewrite !obj_insert. change (storage_of (set_objects ?s _) x) with (storage_of s x). destruct (decide (x = a)) as [->|]; [|auto].
          rewrite (orig_def _ _ (storage_of s' a) _ _ (Hv' k)), (orig_def _ _ (storage_of s a) _ _ (Hv k)). apply same_orig0.
      + constructor; auto. cbn. now rewrite same_sui0.
      + constructor; auto. cbn. intros x Hx. specialize (same_touched0 x Hx). set_solver.
      + constructor; auto; unfold currentv, originalv; try (change (obj (set_storages ?s _)) with (obj s)).
        * intros x j. rewrite !storage_insert. destruct (decide (x = a)) as [->|]; [|apply same_cur0].
          specialize (same_cur0 a j). specialize (same_orig0 a j). unfold cur in *. cbn [st_current]. destruct (decide (j = k)) as [->|E]; [now rewrite !lookup_insert|].
          rewrite !lookup_insert_ne by congruence. exact same_cur0.
        * intros x j. rewrite !storage_insert. destruct (decide (x = a)) as [->|]; [|apply same_orig0]. exact (same_orig0 a j).
      + constructor; auto. cbn. now rewrite same_keys0.
      + constructor; auto. cbn. now rewrite same_addr0.
    - destruct (jpair_effect s d1 d2 Hv) as (E1 & E2 & E5). destruct (jpair_effect s' d1 d2 Hv') as (F1 & F2 & F5).
      assert (O : forall x, obj (jundo s' (JPair d1 d2)) x = obj (jundo s (JPair d1 d2)) x) by (intros x; rewrite E1, F1; destruct (decide _); auto).
      constructor; auto; unfold currentv, originalv.
      + intros x k. rewrite O, E2, F2. rewrite E1. destruct (decide _); auto. specialize (same_cur0 x k). rewrite same_obj0 in same_cur0. exact same_cur0.
      + intros x k. rewrite O, E2, F2. rewrite E1. destruct (decide _); auto. specialize (same_orig0 x k). rewrite same_obj0 in same_orig0. exact same_orig0.
      + destruct E5 as (-> & _), F5 as (-> & _). exact same_sui0.
      + destruct E5 as (_ & -> & _), F5 as (_ & -> & _). exact same_touched0.
      + destruct E5 as (_ & _ & -> & _), F5 as (_ & _ & -> & _). exact same_addr0.
      + destruct E5 as (_ & _ & _ & ->), F5 as (_ & _ & _ & ->). exact same_keys0.
  Qed.

  Lemma okj_same bl : forall s s', same s s' -> okj bl s -> okj bl s'.
  Proof. induction bl as [|b t IH]; intros s s' Hs; [exact id|]. cbn. intros (Hv & Hj). split; [now apply okb_same with s|]. apply IH with (jundo s b); [now apply jundo_same|exact Hj]. Qed.
  Definition undo_blocks (s : ibs) (bl : list jblock) : ibs := fold_left jundo bl s.
  Lemma undo_blocks_same bl : forall s s', same s s' -> okj bl s -> same (undo_blocks s bl) (undo_blocks s' bl).
  Proof. induction bl as [|b t IH]; intros s s' Hs; [intros _; exact Hs|]. cbn. intros (Hv & Hj). apply IH; [now apply jundo_same|exact Hj]. Qed.
  Lemma okj_app a b : forall s, okj (a ++ b) s <-> okj a s /\ okj b (undo_blocks s a).
  Proof. induction a as [|x t IH]; intros s; cbn; [tauto|]. rewrite IH. tauto. Qed.
  Definition flatb (bl : list jblock) : list delta := flat_map jdeltas bl.
  Lemma undo_flat bl : forall s, fold_left revert_delta (flatb bl) s = undo_blocks s bl.
  Proof. induction bl as [|b t IH]; intros s; [reflexivity|]. cbn [flatb flat_map]. rewrite fold_left_app. apply (IH (jundo s b)). Qed.
  Lemma undo_blocks_rest bl : forall s, logs (undo_blocks s bl) = logs s.
  Proof.
    intros s. rewrite <- undo_flat. generalize (flatb bl). clear bl. intros l. revert s. induction l as [|d t IH]; intros s; [reflexivity|]. cbn. rewrite IH. now destruct d.
  Qed.
  Lemma undo_blocks_three bl : forall s, okj bl s -> (3 ∈ touched (undo_blocks s bl) <-> 3 ∈ touched s).
  Proof.
    induction bl as [|b t IH]; intros s; [reflexivity|]. cbn [okj]. intros (Hv & Hj). change (undo_blocks s (b :: t)) with (undo_blocks (jundo s b) t). rewrite (IH _ Hj).
    destruct b as [d|d1 d2]; [|destruct (jpair_effect s d1 d2 Hv) as (_ & _ & _ & -> & _); reflexivity].
    destruct d; cbn in *; try reflexivity; try contradiction. set_solver.
  Qed.

  (** ** [ev s s']: [s'] was reached from [s] by calls that keep the journal. *)
  Record ev (s s' : ibs) : Prop := {
    ev_blocks : exists new, journal s' = flatb new ++ journal s /\ okj new s' /\ same s (undo_blocks s' new);
    ev_logs : exists l, logs s' = logs s ++ l;
    ev_live : forall a, live s a -> live s' a;
    ev_three : 3 ∈ touched s -> 3 ∈ touched s'
  }.
  Lemma ev_refl s : ev s s.
  Proof. constructor; auto; [exists []; repeat split; auto|exists []; now rewrite app_nil_r]. Qed.
  Lemma ev_trans a b c : ev a b -> ev b c -> ev a c.
  Proof.
    intros [(n1 & J1 & K1 & S1) (l1 & L1) V1 T1] [(n2 & J2 & K2 & S2) (l2 & L2) V2 T2]. constructor; auto.
    - exists (n2 ++ n1). split; [unfold flatb; rewrite flat_map_app, <- app_assoc; fold (flatb n2) (flatb n1); now rewrite <- J1|]. split.
      + apply okj_app. split; [exact K2|]. eapply okj_same; [exact S2|exact K1].
      + unfold undo_blocks. rewrite fold_left_app. fold (undo_blocks c n2) (undo_blocks (undo_blocks c n2) n1). eapply same_trans; [exact S1|]. now apply undo_blocks_same.
    - exists (l1 ++ l2). now rewrite L2, L1, app_assoc.
  Qed.
  (** no journal entry, nothing visible changed *)
  Lemma ev_cache s s' : same s s' -> journal s' = journal s -> logs s' = logs s -> (3 ∈ touched s -> 3 ∈ touched s') -> ev s s'.
  Proof.
    intros Hs Hj Hl Ht. constructor.
    - exists []. split; [exact Hj|split; [exact I|exact Hs]].
    - exists []. now rewrite app_nil_r.
    - intros a. unfold live. now rewrite (same_obj _ _ Hs).
    - exact Ht.
  Qed.
  Lemma ev_one s s' d : okb s' (JOne d) -> journal s' = d :: journal s -> same s (revert_delta s' d) -> logs s' = logs s -> (forall a, live s a -> live s' a) ->
    (3 ∈ touched s -> 3 ∈ touched s') -> ev s s'.
  Proof.
    intros Hv Hj Hs Hl Ha Ht. constructor; auto.
    - exists [JOne d]. split; [exact Hj|]. split; [split; [exact Hv|exact I]|exact Hs].
    - exists []. now rewrite app_nil_r.
  Qed.

  (** What reverting restores. *)
  Lemma revert_ok s s' : ev s s' -> let r := revert_to_snapshot s' (take_snapshot s) in
    same s r /\ journal r = journal s /\ logs r = logs s /\ refund r = refund s /\ (3 ∈ touched r <-> 3 ∈ touched s').
  Proof.
    intros [(new & Hj & Hok & Hs) (l & Hl) _ _] r.
    assert (Ek : (length (journal s') - length (journal s) = length (flatb new))%nat) by (rewrite Hj, app_length; lia).
    assert (Er : r = set_refund (set_logs (set_journal (undo_blocks s' new) (journal s)) (logs s)) (refund s)).
    { unfold r, revert_to_snapshot, take_snapshot. cbn [journal_size log_size snap_refund]. rewrite Ek.
      replace (take (length (flatb new)) (journal s')) with (flatb new) by (rewrite Hj; symmetry; apply take_app).
      replace (drop (length (flatb new)) (journal s')) with (journal s) by (rewrite Hj; symmetry; apply drop_app).
      rewrite undo_flat. change (logs (set_journal (undo_blocks s' new) _)) with (logs (undo_blocks s' new)). rewrite undo_blocks_rest, Hl, take_app. reflexivity. }
    rewrite Er. cbn [journal logs refund touched set_refund set_logs set_journal]. split; [|split; [reflexivity|split; [reflexivity|split; [reflexivity|now apply undo_blocks_three]]]].
    destruct Hs. constructor; auto.
  Qed.
  Lemma revert_ev s s' : ev s s' -> ev s (revert_to_snapshot s' (take_snapshot s)).
  Proof.
    intros H. destruct (revert_ok s s' H) as (A & B & C & _ & D). apply ev_cache; auto. rewrite D. apply H.
  Qed.

  (** ** Every call *)
  Lemma get_object_spec s a o s1 : get_object db s a = (o, s1) ->
    (forall x, obj s1 x = obj s x) /\ storages s1 = storages s /\ codes s1 = codes s /\ journal s1 = journal s /\ self_destructs s1 = self_destructs s
    /\ logs s1 = logs s /\ touched s1 = touched s /\ refund s1 = refund s /\ accessed_addresses s1 = accessed_addresses s /\ accessed_keys s1 = accessed_keys s
    /\ match o with Some o' => o' = obj s a | None => obj s a = mkObj None None /\ loadx a = mkObj None None end.
  Proof.
    unfold get_object. destruct (objects s !! a) as [ob|] eqn:E.
    - intros [= <- <-]. repeat split. unfold obj. now rewrite E.
    - destruct (read_account db a) as [acc|] eqn:Er.
      + intros [= <- <-]. repeat split; [|unfold obj, loadx; now rewrite E, Er].
        intros x. rewrite obj_insert. destruct (decide (x = a)) as [->|]; [|reflexivity]. unfold obj, loadx. now rewrite E, Er.
      + intros [= <- <-]. repeat split; unfold obj, loadx; now rewrite ?E, Er.
  Qed.
  Lemma cur_of_obj s a o s1 : get_object db s a = (o, s1) -> current_of o = o_current (obj s a).
  Proof. intros H. apply get_object_spec in H as (_ & _ & _ & _ & _ & _ & _ & _ & _ & _ & H). destruct o as [o|]; [now subst|]. destruct H as (-> & _). reflexivity. Qed.
  (** [quiet]: only caches changed. *)
  Definition quiet (s s' : ibs) : Prop := ev s s' /\ same s s' /\ refund s' = refund s /\ touched s' = touched s /\ logs s' = logs s.
  Lemma quiet_refl s : quiet s s.
  Proof. split; [apply ev_refl|split; [apply same_refl|repeat split; reflexivity]]. Qed.
  Lemma quiet_trans a b c : quiet a b -> quiet b c -> quiet a c.
  Proof. intros (A1 & A2 & A3 & A4 & A5) (B1 & B2 & B3 & B4 & B5). split; [eapply ev_trans; eassumption|]. split; [eapply same_trans; eassumption|]. repeat split; congruence. Qed.
  Lemma quiet_intro s s' : (forall x, obj s' x = obj s x) -> (forall a k, currentv s' a k = currentv s a k) -> (forall a k, originalv s' a k = originalv s a k) ->
    journal s' = journal s -> self_destructs s' = self_destructs s -> logs s' = logs s -> touched s' = touched s -> refund s' = refund s ->
    accessed_addresses s' = accessed_addresses s -> accessed_keys s' = accessed_keys s -> quiet s s'.
  Proof.
    intros H1 H2 H3 H4 H5 H6 H7 H8 H9 H10. assert (S : same s s') by (constructor; auto; intros; now rewrite H7).
    split; [apply ev_cache; auto; now rewrite H7|]. split; [exact S|]. repeat split; assumption.
  Qed.
  Lemma get_object_quiet s a o s1 : get_object db s a = (o, s1) -> quiet s s1.
  Proof.
    intros H. apply get_object_spec in H as (H1 & H2 & H3 & H4 & H5 & H6 & H7 & H8 & H9 & H10 & _).
    apply quiet_intro; auto; intros; unfold currentv, originalv, storage_of; now rewrite H1, H2.
  Qed.
  Lemma exists_quiet s a b s1 : exists_ db s a = (b, s1) -> quiet s s1 /\ (b = true <-> live s a).
  Proof.
    unfold exists_. destruct (get_object db s a) as [o s2] eqn:E. intros [= <- <-]. split; [eapply get_object_quiet; eassumption|].
    rewrite (cur_of_obj _ _ _ _ E). unfold live. destruct (o_current (obj s a)); split; congruence.
  Qed.
  Lemma is_dead_quiet s a b s1 : is_dead db s a = (b, s1) -> quiet s s1.
  Proof. unfold is_dead. destruct (get_object db s a) as [o s2] eqn:E. intros [= _ <-]. eapply get_object_quiet; eassumption. Qed.
  (** Balances and nonces *)
  Definition bal (s : ibs) (a : N) : N := match o_current (obj s a) with Some c => a_balance c | None => 0 end.
  Definition nonce (s : ibs) (a : N) : N := match o_current (obj s a) with Some c => a_nonce c | None => 0 end.
  Definition codehash (s : ibs) (a : N) : bytes := match o_current (obj s a) with Some c => a_code_hash c | None => kEmptyHash end.
  Lemma get_balance_quiet s a b s1 : get_balance db s a = (b, s1) -> quiet s s1 /\ b = bal s a.
  Proof.
    unfold get_balance. destruct (get_object db s a) as [o s2] eqn:E. intros [= <- <-]. split; [eapply get_object_quiet; eassumption|].
    now rewrite (cur_of_obj _ _ _ _ E).
  Qed.
  Lemma get_nonce_quiet s a b s1 : get_nonce db s a = (b, s1) -> quiet s s1 /\ b = nonce s a.
  Proof.
    unfold get_nonce. destruct (get_object db s a) as [o s2] eqn:E. intros [= <- <-]. split; [eapply get_object_quiet; eassumption|].
    now rewrite (cur_of_obj _ _ _ _ E).
  Qed.
  Lemma get_code_hash_quiet s a b s1 : get_code_hash db s a = (b, s1) -> quiet s s1 /\ b = codehash s a.
  Proof.
    unfold get_code_hash. destruct (get_object db s a) as [o s2] eqn:E. intros [= <- <-]. split; [eapply get_object_quiet; eassumption|].
    now rewrite (cur_of_obj _ _ _ _ E).
  Qed.
  Lemma get_code_quiet s a b s1 : get_code db s a = (b, s1) -> quiet s s1 /\ (b <> [] -> live s a).
  Proof.
    unfold get_code. destruct (get_object db s a) as [o s2] eqn:E. pose proof (get_object_quiet _ _ _ _ E) as Q. pose proof (cur_of_obj _ _ _ _ E) as C.
    destruct (current_of o) as [c|]; [|intros [= <- <-]; split; [exact Q|congruence]].
    assert (L : live s a) by (unfold live; rewrite <- C; discriminate).
    destruct (bytes_eqb _ _); [intros [= <- <-]; split; [exact Q|congruence]|]. destruct (codes s2 !! _); intros [= <- <-]; (split; [|intros _; exact L]); [exact Q|].
    eapply quiet_trans; [exact Q|]. apply quiet_intro; reflexivity.
  Qed.

  Lemma storage_quiet s a st : (forall k, cur (obj s a) st a k = currentv s a k) -> (forall k, orig (obj s a) st a k = originalv s a k) ->
    quiet s (set_storages s (<[a := st]> (storages s))).
  Proof.
    intros H1 H2. apply quiet_intro; try reflexivity; intros x k; unfold currentv, originalv; rewrite storage_insert;
      change (obj (set_storages s _) x) with (obj s x); (destruct (decide (x = a)) as [->|]; [first [exact (H1 k)|exact (H2 k)]|reflexivity]).
  Qed.
  Lemma get_storage_quiet s a k original v s1 : get_storage db s a k original = (v, s1) ->
    quiet s s1 /\ (live s a -> v = if original then originalv s a k else currentv s a k) /\ (~ live s a -> v = 0).
  Proof.
    unfold get_storage. destruct (get_object db s a) as [o s2] eqn:E. pose proof (get_object_quiet _ _ _ _ E) as Q. pose proof (cur_of_obj _ _ _ _ E) as C.
    destruct o as [o|]; [|cbn in C; intros [= <- <-]; split; [exact Q|split; [unfold live; congruence|reflexivity]]].
    assert (Eo : o = obj s a) by (apply get_object_spec in E; apply E). cbn [current_of] in C.
    destruct (o_current o) as [c|] eqn:Ec; [|intros [= <- <-]; split; [exact Q|split; [unfold live; congruence|reflexivity]]].
    assert (L : live s a) by (unfold live; congruence).
    assert (Est : storage_of s2 a = storage_of s a) by (apply get_object_spec in E as (_ & E & _); unfold storage_of; now rewrite E).
    assert (Eob : obj s2 a = obj s a) by (apply get_object_spec in E; apply E).
    set (st := storage_of s2 a) in *.
    assert (Q1 : quiet s (set_storages s2 (<[a := st]> (storages s2)))).
    { eapply quiet_trans; [exact Q|]. apply storage_quiet; intros j; unfold currentv, originalv; fold st; reflexivity. }
    set (s3 := set_storages s2 _) in *.
    assert (P : forall w s4, quiet s s4 -> w = (if original then originalv s a k else currentv s a k) ->
      quiet s s4 /\ (live s a -> w = if original then originalv s a k else currentv s a k) /\ (~ live s a -> w = 0)) by (intros; split; [assumption|split; [auto|contradiction]]).
    destruct (if original then None else st_current st !! k) as [w|] eqn:Ew.
    { destruct original; [discriminate|]. intros [= <- <-]. apply P; [exact Q1|]. unfold currentv, cur. rewrite <- Est, Ew. reflexivity. }
    assert (Eq : (if original then originalv s a k else currentv s a k) = originalv s a k).
    { destruct original; [reflexivity|]. unfold currentv, cur. rewrite <- Est, Ew. unfold originalv. now rewrite <- Est. }
    rewrite Eq in P. rewrite Eq. clear Eq.
    destruct (st_committed st !! k) as [cv|] eqn:Ecv.
    { intros [= <- <-]. apply P; [exact Q1|]. unfold originalv, orig. rewrite <- Est, Ecv. reflexivity. }
    assert (Dv : originalv s a k = deft (obj s a) a k) by (unfold originalv, orig; rewrite <- Est, Ecv; reflexivity).
    destruct (match o_initial o with Some i => _ | None => true end) eqn:Ei.
    - intros [= <- <-]. apply P; [exact Q1|]. rewrite Dv. unfold deft. rewrite <- Eo, Ec. destruct (o_initial o) as [i|]; [|reflexivity]. apply negb_true_iff in Ei. now rewrite Ei.
    - intros [= <- <-]. assert (Dr : deft (obj s a) a k = read_storage db a (a_incarnation c) k).
      { unfold deft. rewrite <- Eo, Ec. destruct (o_initial o) as [i|]; [|discriminate]. apply negb_false_iff in Ei. now rewrite Ei. }
      apply P; [|congruence]. eapply quiet_trans; [exact Q1|]. assert (Es3 : storage_of s3 a = st) by (unfold s3; rewrite storage_insert; now destruct (decide (a = a))).
      assert (Eo3 : obj s3 a = obj s a) by exact Eob.
      assert (Oj : forall j, orig (obj s3 a) (mkSt (<[k := mkCv (read_storage db a (a_incarnation c) k) (read_storage db a (a_incarnation c) k)]> (st_committed st)) (st_current st)) a j = orig (obj s a) st a j).
      { intros j. rewrite Eo3. unfold orig. cbn [st_committed]. destruct (decide (j = k)) as [->|Nj]; [rewrite lookup_insert, Ecv; cbn; congruence|]. now rewrite lookup_insert_ne by congruence. }
      apply storage_quiet; intros j; unfold currentv, originalv; rewrite Es3; [|rewrite Oj; now rewrite Eo3].
      unfold cur. cbn [st_current]. destruct (st_current st !! j); [reflexivity|]. rewrite Oj. now rewrite Eo3.
  Qed.

  (** Objects *)
  Lemma ev_obj s a d o' : match d with CreateDelta b | UpdateDelta b _ => b = a | _ => False end -> goal d a = obj s a ->
    o_current o' <> None -> (forall k, deft o' a k = deft (obj s a) a k) ->
    let s' := set_objects (push s d) (<[a := o']> (objects s)) in
    ev s s' /\ forall x, obj s' x = if decide (x = a) then o' else obj s x.
  Proof.
    intros Hd Ht Hc Hk s'.
    assert (O : forall x, obj s' x = if decide (x = a) then o' else obj s x) by (intros x; exact (obj_insert (push s d) a o' x)).
    split; [|exact O]. apply ev_one with d; try reflexivity.
    - destruct d; try contradiction; subst a0; cbn [okb]; rewrite Ht; intros k; rewrite O; destruct (decide (a = a)); try congruence; symmetry; apply Hk.
    - assert (U : forall x, obj (revert_delta s' d) x = obj s x).
      { intros x. destruct d; try contradiction; subst a0; cbn [goal] in Ht; cbn [revert_delta].
        - rewrite obj_delete, O. destruct (decide (x = a)) as [->|]; [exact Ht|reflexivity].
        - rewrite obj_insert, O. destruct (decide (x = a)) as [->|]; [exact Ht|reflexivity]. }
      assert (S : forall x, storage_of (revert_delta s' d) x = storage_of s x) by (intros x; destruct d; try contradiction; reflexivity).
      constructor; intros; unfold currentv, originalv; rewrite ?U, ?S; auto; destruct d; try contradiction; try reflexivity; auto.
    - intros x. unfold live. rewrite O. now destruct (decide (x = a)).
    - auto.
  Qed.
  Definition restx (s : ibs) := (storages s, codes s, self_destructs s, logs s, touched s, refund s, accessed_addresses s, accessed_keys s).
  Lemma get_object_restx s a o s1 : get_object db s a = (o, s1) -> restx s1 = restx s.
  Proof. intros H. apply get_object_spec in H as (_ & H2 & H3 & _ & H4 & H5 & H6 & H7 & H8 & H9 & _). unfold restx. congruence. Qed.
  Lemma restx_storage s s1 x : restx s1 = restx s -> storage_of s1 x = storage_of s x.
  Proof. unfold restx, storage_of. intros [= -> _ _ _ _ _ _ _]. reflexivity. Qed.

  (** Substate *)
  Lemma touch_ev s a : ev s (touch s a) /\ (forall x, obj (touch s a) x = obj s x) /\ refund (touch s a) = refund s /\ storages (touch s a) = storages s.
  Proof.
    split; [|unfold touch; destruct (_ && _); repeat split; reflexivity].
    unfold touch. destruct (decide (a ∈ touched s)) as [E|E].
    - rewrite bool_decide_false by (intros X; exact (X E)). cbn [andb]. apply ev_cache; try reflexivity; [constructor; auto; cbn; set_solver|cbn; set_solver].
    - rewrite bool_decide_true by exact E. cbn [andb]. destruct (N.eqb_spec a kRipemdAddress) as [->|E3]; cbn [negb].
      + apply ev_cache; try reflexivity; [constructor; auto; cbn; unfold kRipemdAddress; set_solver|cbn; set_solver].
      + apply ev_one with (TouchDelta a); try reflexivity; [exact E3|constructor; auto; cbn; set_solver|auto|cbn; set_solver].
  Qed.
  Lemma suicide_ev s a : ev s (record_suicide s a) /\ (forall x, obj (record_suicide s a) x = obj s x).
  Proof.
    split; [|unfold record_suicide; destruct (bool_decide _); reflexivity]. unfold record_suicide. destruct (decide (a ∈ self_destructs s)) as [E|E].
    - rewrite bool_decide_false by (intros X; exact (X E)). apply ev_cache; try reflexivity; [constructor; auto; cbn; set_solver|auto].
    - rewrite bool_decide_true by exact E. apply ev_one with (SuicideDelta a); try exact I; try reflexivity; [constructor; auto; cbn; set_solver|auto|auto].
  Qed.
  Lemma access_account_ev s a b s' : access_account s a = (b, s') -> ev s s' /\ (forall x, obj s' x = obj s x).
  Proof.
    unfold access_account. intros [= _ <-]. split; [|destruct (bool_decide _); reflexivity]. destruct (decide (a ∈ accessed_addresses s)) as [E|E].
    - rewrite bool_decide_false by (intros X; exact (X E)). apply ev_cache; try reflexivity; [constructor; auto; cbn; set_solver|auto].
    - rewrite bool_decide_true by exact E. apply ev_one with (AccountAccessDelta a); try exact I; try reflexivity; [constructor; auto; cbn; set_solver|auto|auto].
  Qed.
  Lemma access_storage_ev s a k b s' : access_storage s a k = (b, s') -> ev s s' /\ (forall x, obj s' x = obj s x).
  Proof.
    unfold access_storage. intros [= _ <-]. split; [|destruct (bool_decide _); reflexivity]. destruct (decide ((a, k) ∈ accessed_keys s)) as [E|E].
    - rewrite bool_decide_false by (intros X; exact (X E)). apply ev_cache; try reflexivity; [constructor; auto; cbn; set_solver|auto].
    - rewrite bool_decide_true by exact E. apply ev_one with (StorageAccessDelta a k); try exact I; try reflexivity; [constructor; auto; cbn; set_solver|auto|auto].
  Qed.
  Lemma refund_ev s n : ev s (set_refund s n) /\ (forall x, obj (set_refund s n) x = obj s x).
  Proof. split; [|reflexivity]. apply ev_cache; try reflexivity; [constructor; auto|auto]. Qed.
  Lemma add_log_ev s l : ev s (add_log s l) /\ (forall x, obj (add_log s l) x = obj s x).
  Proof.
    split; [|reflexivity]. constructor.
    - exists []. split; [reflexivity|]. split; [exact I|]. constructor; auto.
    - exists [l]. reflexivity.
    - auto.
    - auto.
  Qed.

  Lemma create_contract_ev s a : ev s (create_contract db s a) /\ (forall x, bal (create_contract db s a) x = bal s x)
    /\ (forall x, nonce (create_contract db s a) x = if decide (x = a) then 0 else nonce s x)
    /\ (forall x, codehash (create_contract db s a) x = if decide (x = a) then kEmptyHash else codehash s x)
    /\ refund (create_contract db s a) = refund s /\ live (create_contract db s a) a.
  Proof.
    unfold create_contract. destruct (get_object db s a) as [p s1] eqn:E. destruct (get_object_quiet _ _ _ _ E) as (X & _).
    pose proof (get_object_restx _ _ _ _ E) as Hrest. pose proof (cur_of_obj _ _ _ _ E) as Hcur. apply get_object_spec in E as (H1 & _ & _ & _ & _ & _ & _ & _ & _ & _ & H).
    set (d1 := match p with Some p => UpdateDelta a p | None => CreateDelta a end).
    assert (Ed : match p with Some p => push s1 (UpdateDelta a p) | None => push s1 (CreateDelta a) end = push s1 d1) by (now destruct p).
    rewrite Ed. clear Ed.
    assert (Ht : goal d1 a = obj s1 a) by (rewrite H1; destruct p; cbn; [assumption|destruct H; congruence]).
    match goal with |- context [mkObj ?x (Some (mkAccount 0 ?b ?h ?i))] => set (o' := mkObj x (Some (mkAccount 0 b h i))); assert (Ob : b = bal s a) by (unfold bal; now rewrite Hcur) end.
    change (storages (set_objects (push s1 d1) ?m)) with (storages s1). change (objects (push s1 d1)) with (objects s1).
    assert (Ho : forall x, obj (set_objects (push s1 d1) (<[a := o']> (objects s1))) x = if decide (x = a) then o' else obj s x).
    { intros x. etransitivity; [apply (obj_insert (push s1 d1) a o' x)|]. destruct (decide (x = a)); [reflexivity|exact (H1 x)]. }
    assert (Hpa : paddr d1 = a) by (unfold d1; now destruct p).
    assert (G : forall d2 sts, okb s (JPair d1 d2) -> (forall x, x <> a -> default storage_empty (sts !! x) = storage_of s x) -> pst d2 = storage_of s a ->
      let s' := set_storages (push (set_objects (push s1 d1) (<[a := o']> (objects s1))) d2) sts in
      ev s s' /\ (forall x, bal s' x = bal s x) /\ (forall x, nonce s' x = if decide (x = a) then 0 else nonce s x)
      /\ (forall x, codehash s' x = if decide (x = a) then kEmptyHash else codehash s x) /\ refund s' = refund s /\ live s' a).
    { intros d2 sts Hv Hsts Hpst s'.
      assert (Ov : forall x, obj s' x = if decide (x = a) then o' else obj s x) by exact Ho.
      assert (Sv : forall x, x <> a -> storage_of s' x = storage_of s x) by exact Hsts.
      assert (Hv' : okb s' (JPair d1 d2)) by exact Hv.
      destruct (jpair_effect s' d1 d2 Hv') as (E1 & E2 & E3 & E4 & E5 & E6). rewrite Hpa in E1, E2.
      assert (O2 : forall x, obj (jundo s' (JPair d1 d2)) x = obj s1 x).
      { intros x. rewrite E1. destruct (decide (x = a)) as [->|Nx]; [exact Ht|]. rewrite Ov. rewrite H1. destruct (decide (x = a)); [contradiction|reflexivity]. }
      assert (S2 : forall x, storage_of (jundo s' (JPair d1 d2)) x = storage_of s1 x).
      { intros x. rewrite E2, (restx_storage s s1) by exact Hrest. destruct (decide (x = a)) as [->|Nx]; [exact Hpst|]. now apply Sv. }
      split; [|split; [|split; [|split; [|split]]]].
      - eapply ev_trans; [exact X|]. constructor.
        + exists [JPair d1 d2]. split; [reflexivity|]. split; [split; [exact Hv'|exact I]|]. cbn [undo_blocks fold_left].
          constructor; auto; unfold currentv, originalv.
          * intros x k. now rewrite O2, S2.
          * intros x k. now rewrite O2, S2.
          * intros x Hx. rewrite E4. reflexivity.
        + exists []. rewrite app_nil_r. reflexivity.
        + intros x. unfold live. rewrite Ov, H1. destruct (decide (x = a)); [discriminate|auto].
        + auto.
      - intros x. unfold bal. rewrite Ov. destruct (decide (x = a)) as [->|]; [exact Ob|reflexivity].
      - intros x. unfold nonce. rewrite Ov. destruct (decide (x = a)) as [->|]; reflexivity.
      - intros x. unfold codehash. rewrite Ov. destruct (decide (x = a)) as [->|]; reflexivity.
      - change (refund s1 = refund s). unfold restx in Hrest. congruence.
      - unfold live. rewrite Ov. destruct (decide (a = a)); [discriminate|congruence]. }
    destruct (storages s1 !! a) as [st|] eqn:Es.
    - apply (G (StorageWipeDelta a st) (delete a (storages s1))).
      + unfold d1. destruct p; reflexivity.
      + intros x Nx. rewrite lookup_delete_ne by congruence. rewrite <- (restx_storage s s1) by exact Hrest. reflexivity.
      + cbn. rewrite <- (restx_storage s s1) by exact Hrest. unfold storage_of. now rewrite Es.
    - apply (G (StorageCreateDelta a) (storages s1)).
      + unfold d1. destruct p; reflexivity.
      + intros x Nx. rewrite <- (restx_storage s s1) by exact Hrest. reflexivity.
      + cbn. rewrite <- (restx_storage s s1) by exact Hrest. unfold storage_of. now rewrite Es.
  Qed.

  Lemma set_storage_ev s a k v : live s a -> ev s (set_storage db s a k v) /\ (forall x, obj (set_storage db s a k v) x = obj s x)
    /\ refund (set_storage db s a k v) = refund s
    /\ (forall x j, currentv (set_storage db s a k v) x j = if decide (x = a /\ j = k) then v else currentv s x j)
    /\ (forall x j, originalv (set_storage db s a k v) x j = originalv s x j).
  Proof.
    intros Hl. unfold set_storage, get_current_storage. destruct (get_storage db s a k false) as [p s1] eqn:E. destruct (get_storage_quiet _ _ _ _ _ _ E) as ((Q1 & Q2 & Q3 & _) & Hv & _).
    specialize (Hv Hl). cbn [negb] in Hv. destruct (N.eqb_spec p v) as [Epv|Epv].
    { split; [exact Q1|]. split; [apply Q2|]. split; [exact Q3|]. split; [|apply Q2]. intros x j. destruct (decide _) as [(-> & ->)|]; [|apply Q2]. rewrite (same_cur _ _ Q2). congruence. }
    set (st := storage_of s1 a). set (s2 := push (set_storages s1 _) _).
    assert (O : forall x, obj s2 x = obj s x) by (intros x; apply Q2).
    assert (S : forall x, storage_of s2 x = if decide (x = a) then mkSt (st_committed st) (<[k := v]> (st_current st)) else storage_of s1 x) by (intros x; exact (storage_insert (s1) (storages s1) a _ x)).
    assert (Cu : forall x j, currentv s2 x j = if decide (x = a /\ j = k) then v else currentv s x j).
    { intros x j. unfold currentv. rewrite O, S. pose proof (same_cur _ _ Q2 x j) as C. unfold currentv in C. rewrite (same_obj _ _ Q2) in C. destruct (decide (x = a)) as [->|Nx].
      - fold st in C. destruct (decide (j = k)) as [->|Nj]; (destruct (decide _) as [(_ & ?)|Nd]; try tauto); unfold cur at 1; cbn [st_current]; [now rewrite lookup_insert|].
        rewrite lookup_insert_ne by congruence. exact C.
      - destruct (decide _); [tauto|]. exact C. }
    assert (Or : forall x j, originalv s2 x j = originalv s x j).
    { intros x j. unfold originalv. rewrite O, S. pose proof (same_orig _ _ Q2 x j) as C. unfold originalv in C. rewrite (same_obj _ _ Q2) in C. destruct (decide (x = a)) as [->|Nx]; exact C. }
    split; [|split; [exact O|split; [exact Q3|split; [exact Cu|exact Or]]]].
    eapply ev_trans; [exact Q1|]. apply ev_one with (StorageChangeDelta a k p); try exact I; try reflexivity; [ |auto|auto].
    assert (S3 : forall x, storage_of (revert_delta s2 (StorageChangeDelta a k p)) x = if decide (x = a) then mkSt (st_committed st) (<[k := p]> (<[k := v]> (st_current st))) else storage_of s1 x).
    { intros x. cbn [revert_delta]. rewrite storage_insert. rewrite S. destruct (decide (a = a)); [|congruence]. destruct (decide (x = a)) as [->|Nx]; [reflexivity|].
      transitivity (storage_of s2 x); [reflexivity|]. rewrite S. now destruct (decide (x = a)). }
    constructor; auto; unfold currentv, originalv.
    - intros x j. change (obj (revert_delta s2 (StorageChangeDelta a k p)) x) with (obj s1 x). rewrite S3. destruct (decide (x = a)) as [->|Nx]; [|reflexivity].
      unfold cur at 1. cbn [st_current]. destruct (decide (j = k)) as [->|Nj].
      + rewrite lookup_insert. rewrite Hv. symmetry. exact (same_cur _ _ Q2 a k).
      + rewrite !lookup_insert_ne by congruence. reflexivity.
    - intros x j. change (obj (revert_delta s2 (StorageChangeDelta a k p)) x) with (obj s1 x). rewrite S3. destruct (decide (x = a)) as [->|Nx]; reflexivity.
  Qed.

  (** Accounts that are not contracts have no storage in the database. *)
  Hypothesis Hdb : forall a k, read_storage db a 0 k = 0.

  Lemma deft_fresh o a k : deft (mkObj o (Some account_default)) a k = 0.
  Proof.
    unfold deft. cbn [o_initial o_current]. destruct o as [i|]; [|reflexivity]. destruct (a_incarnation i =? a_incarnation account_default); [|reflexivity].
    cbn. apply Hdb.
  Qed.
  Lemma get_or_create_ev s a o c s' : get_or_create_object db s a = (o, c, s') ->
    ev s s' /\ o = mkObj (o_initial (obj s a)) (Some c) /\ c = default account_default (o_current (obj s a))
      /\ (forall x, obj s' x = if decide (x = a) then o else obj s x) /\ restx s' = restx s.
  Proof.
    unfold get_or_create_object. destruct (get_object db s a) as [p s1] eqn:E. destruct (get_object_quiet _ _ _ _ E) as (X & _).
    pose proof (get_object_restx _ _ _ _ E) as Hr. apply get_object_spec in E as (H1 & _ & H3 & _ & _ & _ & _ & _ & _ & _ & H).
    destruct p as [p|].
    - subst p. destruct (o_current (obj s a)) as [c0|] eqn:Ec.
      + intros [= <- <- <-]. split; [exact X|]. split; [destruct (obj s a); cbn in *; congruence|]. split; [reflexivity|]. split; [|exact Hr].
        intros x. rewrite H1. destruct (decide (x = a)) as [->|]; reflexivity.
      + intros [= <- <- <-]. destruct (ev_obj s1 a (UpdateDelta a (obj s a)) (mkObj (o_initial (obj s a)) (Some account_default))) as (Y & O).
        { reflexivity. } { cbn. now rewrite H1. } { discriminate. } { intros k. rewrite deft_fresh, H1. unfold deft. rewrite Ec. now destruct (o_initial (obj s a)). }
        split; [eapply ev_trans; [exact X|exact Y]|]. split; [reflexivity|split; [reflexivity|split; [|exact Hr]]].
        intros x. etransitivity; [exact (O x)|]. destruct (decide (x = a)); [reflexivity|]. exact (H1 x).
    - destruct H as (H & Hl). rewrite H in *. cbn [o_initial o_current default] in *. intros [= <- <- <-].
      destruct (ev_obj s1 a (CreateDelta a) (mkObj None (Some account_default))) as (Y & O).
      { reflexivity. } { cbn. now rewrite H1, H. } { discriminate. } { intros k. rewrite deft_fresh, H1, H. reflexivity. }
      split; [eapply ev_trans; [exact X|exact Y]|]. split; [reflexivity|split; [reflexivity|split; [|exact Hr]]].
      intros x. etransitivity; [exact (O x)|]. destruct (decide (x = a)); [reflexivity|]. exact (H1 x).
  Qed.
  Lemma update_current_ev s a f : (forall c, a_incarnation (f c) = a_incarnation c) ->
    ev s (update_current db s a f)
      /\ (forall x, obj (update_current db s a f) x = if decide (x = a) then mkObj (o_initial (obj s a)) (Some (f (default account_default (o_current (obj s a))))) else obj s x)
      /\ restx (update_current db s a f) = restx s.
  Proof.
    intros Hf. unfold update_current. destruct (get_or_create_object db s a) as [[o c] s1] eqn:E.
    destruct (get_or_create_ev _ _ _ _ _ E) as (X & Eo & Ec & H & Hr).
    assert (Oa : obj s1 a = o) by (rewrite H; destruct (decide (a = a)); congruence).
    destruct (ev_obj s1 a (UpdateDelta a o) (mkObj (o_initial o) (Some (f c)))) as (Y & O).
    { reflexivity. } { cbn. congruence. } { discriminate. } { intros k. rewrite Oa, Eo. unfold deft. cbn [o_initial o_current]. now rewrite Hf. }
    split; [|split; [|exact Hr]].
    - eapply ev_trans; [exact X|exact Y].
    - intros x. etransitivity; [exact (O x)|]. destruct (decide (x = a)) as [->|N]; [now rewrite Eo, Ec|]. rewrite H. now destruct (decide (x = a)).
  Qed.
  (** Balances, nonces and code *)
  Lemma balance_ev s a f : let s' := touch (update_current db s a (fun c => with_balance c (f c))) a in
    ev s s' /\ (forall x, bal s' x = if decide (x = a) then f (default account_default (o_current (obj s a))) else bal s x)
    /\ (forall x, nonce s' x = nonce s x) /\ (forall x, codehash s' x = codehash s x) /\ refund s' = refund s /\ live s' a.
  Proof.
    intros s'. destruct (update_current_ev s a (fun c => with_balance c (f c))) as (X & O & R); [reflexivity|].
    destruct (touch_ev (update_current db s a (fun c => with_balance c (f c))) a) as (Y & P & F & _). fold s' in Y, P, F.
    split; [eapply ev_trans; eassumption|]. unfold bal, nonce, codehash, live. split; [|split; [|split; [|split]]].
    - intros x. rewrite P, O. destruct (decide (x = a)); reflexivity.
    - intros x. rewrite P, O. destruct (decide (x = a)) as [->|]; [|reflexivity]. cbn. now destruct (o_current (obj s a)).
    - intros x. rewrite P, O. destruct (decide (x = a)) as [->|]; [|reflexivity]. cbn. now destruct (o_current (obj s a)).
    - rewrite F. unfold restx in R. congruence.
    - rewrite P, O. destruct (decide (a = a)); [discriminate|congruence].
  Qed.
  Lemma default_balance s a : a_balance (default account_default (o_current (obj s a))) = bal s a.
  Proof. unfold bal. now destruct (o_current (obj s a)). Qed.
  Lemma set_nonce_ev s a n : ev s (set_nonce db s a n) /\ (forall x, bal (set_nonce db s a n) x = bal s x)
    /\ (forall x, nonce (set_nonce db s a n) x = if decide (x = a) then n else nonce s x) /\ (forall x, codehash (set_nonce db s a n) x = codehash s x) /\ refund (set_nonce db s a n) = refund s.
  Proof.
    unfold set_nonce. destruct (update_current_ev s a (fun c => with_nonce c n)) as (X & O & R); [reflexivity|]. split; [exact X|]. unfold bal, nonce, codehash.
    split; [|split; [|split]].
    - intros x. rewrite O. destruct (decide (x = a)) as [->|]; [|reflexivity]. cbn. now destruct (o_current (obj s a)).
    - intros x. rewrite O. destruct (decide (x = a)) as [->|]; reflexivity.
    - intros x. rewrite O. destruct (decide (x = a)) as [->|]; [|reflexivity]. cbn. now destruct (o_current (obj s a)).
    - unfold restx in R. congruence.
  Qed.
  Lemma set_code_ev s a c : ev s (set_code keccak db s a c) /\ (forall x, bal (set_code keccak db s a c) x = bal s x)
    /\ (forall x, nonce (set_code keccak db s a c) x = nonce s x) /\ refund (set_code keccak db s a c) = refund s.
  Proof.
    unfold set_code. set (s1 := update_current db s a _). destruct (update_current_ev s a (fun x => with_code_hash x (keccak c))) as (X & O & R); [reflexivity|]. fold s1 in X, O, R.
    assert (G : forall s2, quiet s1 s2 -> ev s s2 /\ (forall x, bal s2 x = bal s x) /\ (forall x, nonce s2 x = nonce s x) /\ refund s2 = refund s).
    { intros s2 (Q1 & Q2 & Q3 & _). split; [eapply ev_trans; eassumption|]. unfold bal, nonce. split; [|split].
      - intros x. rewrite (same_obj _ _ Q2), O. destruct (decide (x = a)) as [->|]; [|reflexivity]. cbn. now destruct (o_current (obj s a)).
      - intros x. rewrite (same_obj _ _ Q2), O. destruct (decide (x = a)) as [->|]; [|reflexivity]. cbn. now destruct (o_current (obj s a)).
      - rewrite Q3. unfold restx in R. congruence. }
    destruct (codes s1 !! keccak c); apply G; [apply quiet_refl|]. apply quiet_intro; reflexivity.
  Qed.

End Journal.
