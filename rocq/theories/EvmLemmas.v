(** Final forms of the theorems about message calls, and their witnesses. *)
From stdpp Require Import gmap.
From Coq Require Import ZArith.
From Verif Require Import Base BaseFacts RlpModel TypesModel ChainModel StateModel JournalProofs EvmModel EvmSpec EvmProofs.

Section Lemmas.
  Variable keccak : bytes -> bytes.
  Variable db : db_reader.
  Variable rev : N.
  Variable pre_gas : N -> bytes -> N -> N.
  Variable pre_run : N -> bytes -> option bytes.
  Variable block_hash : N -> bytes.
  Variable interp : message -> bytes -> prog.
  Notation hcall := (host_call keccak db rev pre_gas pre_run block_hash interp).
  Notation etxn := (execute_txn keccak db rev pre_gas pre_run block_hash interp).

  Lemma balance_of_bal s a : balance_of db s a = bal db s a.
  Proof. unfold balance_of. destruct (get_balance db s a) as [b s1] eqn:E. now apply get_balance_quiet in E as (_ & ->). Qed.
  Lemma nonce_of_nonce s a : nonce_of db s a = nonce db s a.
  Proof. unfold nonce_of. destruct (get_nonce db s a) as [b s1] eqn:E. now apply get_nonce_quiet in E as (_ & ->). Qed.
  Lemma code_hash_of_ch s a : code_hash_of db s a = codehash db s a.
  Proof. unfold code_hash_of. destruct (get_code_hash db s a) as [b s1] eqn:E. now apply get_code_hash_quiet in E as (_ & ->). Qed.
  Definition liveb (s : ibs) (a : N) : bool := match o_current (obj db s a) with Some _ => true | None => false end.
  Lemma liveb_spec s a : liveb s a = true <-> live db s a.
  Proof. unfold liveb, live. destruct (o_current (obj db s a)); split; congruence. Qed.
  Lemma existing_live s a : existing db s a = liveb s a.
  Proof. unfold existing. destruct (exists_ db s a) as [b s1] eqn:E. apply exists_quiet in E as (_ & E). cbn. apply eq_true_iff_eq. now rewrite liveb_spec. Qed.
  Lemma storage_value s a k o : fst (get_storage db s a k o) = if liveb s a then (if o then originalv db s a k else currentv db s a k) else 0.
  Proof.
    destruct (get_storage db s a k o) as [v s1] eqn:E. apply get_storage_quiet in E as (_ & E1 & E2). cbn. destruct (liveb s a) eqn:El.
    - apply E1. now apply liveb_spec.
    - apply E2. rewrite <- liveb_spec. congruence.
  Qed.
  Lemma liveb_obj s s' a : obj db s' a = obj db s a -> liveb s' a = liveb s a.
  Proof. unfold liveb. now intros ->. Qed.

  Lemma back_unchanged s s' : back db s s' -> unchanged db s s'.
  Proof.
    intros ([A1 A2 A3 A4 A5 A6 A7] & B & C). constructor; auto.
    - intros a. rewrite !existing_live. now apply liveb_obj.
    - intros a. rewrite !balance_of_bal. now apply bal_obj.
    - intros a. rewrite !nonce_of_nonce. unfold nonce. now rewrite A1.
    - intros a. rewrite !code_hash_of_ch. unfold codehash. now rewrite A1.
    - intros a k. unfold get_current_storage. rewrite !storage_value. now rewrite (liveb_obj s s'), A2 by apply A1.
    - intros a k. unfold get_original_storage. rewrite !storage_value. now rewrite (liveb_obj s s'), A3 by apply A1.
  Qed.
  Lemma total_balance s t : total (balance_of db s) t <-> total (bal db s) t.
  Proof. split; apply total_ext; intros a; now rewrite balance_of_bal. Qed.
  Lemma new_address_eq m s : new_address keccak db m s = contract_address keccak db m s.
  Proof. unfold new_address, contract_address. now rewrite nonce_of_nonce. Qed.
  Lemma attempted_eq m s : creation_attempted keccak db m s = create_base keccak db m s.
  Proof. unfold creation_attempted, create_base. now rewrite nonce_of_nonce, new_address_eq. Qed.
  Lemma valid_stack stack m s : valid_caller db stack m s -> stack_ok db stack m s.
  Proof. unfold valid_caller, stack_ok. destruct (m_kind m); auto; [destruct stack; auto|]; rewrite existing_live; apply liveb_spec. Qed.

  Section Law.
    Variable strict : bool.
    Hypothesis Hdb : forall a k, read_storage db a 0 k = 0.
    Hypothesis Hlaw : lawful strict interp.

    Lemma hcall_frame fuel stack m s : (0 <= m_gas m)%Z -> m_depth m <= 1024 -> valid_caller db stack m s ->
      match hcall (S fuel) stack m s with
      | Returns r s' => post db strict (m_gas m) s r s'
        /\ (r_status r <> SUCCESS -> if is_creation m then unchanged db (if balance_of db s (m_sender m) <? m_value m then s else creation_attempted keccak db m s) s' else unchanged db s s')
      | NoFuel => N.of_nat fuel + (m_depth m + 1) < 1025
      | Undefined => False
      end.
    Proof.
      intros Hg Hd Hv. apply valid_stack in Hv. cbn [host_call]. unfold host_call_body, is_creation.
      pose proof (nested_ok keccak db rev pre_gas pre_run block_hash interp strict Hdb Hlaw fuel (m_depth m)) as Hrec.
      assert (Sf : forall t, t <> SUCCESS -> is_success t = false) by (intros []; cbn; congruence).
      destruct (m_kind m) eqn:Ek.
      4,5: pose proof (create_ok keccak db rev pre_gas pre_run block_hash interp strict Hdb Hlaw _ _ (m_depth m) Hrec stack m s eq_refl Hd Hg) as H;
        destruct (create _ _ _ _ _ _ _ _ _) as [r s'| |]; cbn in H; auto; destruct H as ((A & B) & C);
        (split; [split; [exact A|destruct (is_revert (r_status r)); cbn [r_gas]; lia]|]);
        intros Hs; rewrite balance_of_bal, attempted_eq;
        (assert (Hs' : is_success (r_status r) = false) by (apply Sf; destruct (is_revert (r_status r)); exact Hs));
        specialize (C Hs'); destruct (_ <? _); now apply back_unchanged.
      all: pose proof (call_ok keccak db rev pre_gas pre_run block_hash interp strict Hdb Hlaw _ _ (m_depth m) Hrec stack m s eq_refl Hd Hg Hv ltac:(congruence) ltac:(congruence)) as H;
        destruct (call _ _ _ _ _ _ _ _ _ _) as [r s'| |]; cbn in H; auto; destruct H as (A & C); (split; [exact A|]); intros Hs; apply back_unchanged, C, Sf, Hs.
    Qed.

    (** A frame that does not succeed leaves no trace. *)
    Theorem failed_no_trace fuel stack m s r s' : (0 <= m_gas m)%Z -> m_depth m <= 1024 -> valid_caller db stack m s ->
      hcall fuel stack m s = Returns r s' -> r_status r <> SUCCESS ->
      if is_creation m then unchanged db (if balance_of db s (m_sender m) <? m_value m then s else creation_attempted keccak db m s) s' else unchanged db s s'.
    Proof.
      intros Hg Hd Hv E Hs. destruct fuel as [|fuel]; [discriminate|]. pose proof (hcall_frame fuel stack m s Hg Hd Hv) as H. rewrite E in H. now apply H.
    Qed.
    Theorem gas_bounds fuel stack m s r s' : (0 <= m_gas m)%Z -> m_depth m <= 1024 -> valid_caller db stack m s ->
      hcall fuel stack m s = Returns r s' -> (0 <= r_gas r <= m_gas m)%Z.
    Proof. intros Hg Hd Hv E. destruct fuel as [|fuel]; [discriminate|]. pose proof (hcall_frame fuel stack m s Hg Hd Hv) as H. rewrite E in H. apply H. Qed.
    Theorem supply_kept fuel stack m s r s' t : (0 <= m_gas m)%Z -> m_depth m <= 1024 -> valid_caller db stack m s ->
      hcall fuel stack m s = Returns r s' -> total (balance_of db s) t -> t < 2 ^ 256 ->
      exists t', total (balance_of db s') t' /\ t' <= t /\ (strict = true -> t' = t).
    Proof.
      intros Hg Hd Hv E T Ht. destruct fuel as [|fuel]; [discriminate|]. pose proof (hcall_frame fuel stack m s Hg Hd Hv) as H. rewrite E in H. destruct H as (((_ & F) & _) & _).
      apply total_balance in T. destruct (F t Ht T) as (t' & A & B). exists t'. split; [now apply total_balance|exact B].
    Qed.
    Theorem call_returns fuel stack m s : (0 <= m_gas m)%Z -> m_depth m <= 1024 -> valid_caller db stack m s -> 1025 <= N.of_nat fuel + m_depth m ->
      exists r s', hcall fuel stack m s = Returns r s'.
    Proof.
      intros Hg Hd Hv Hf. destruct fuel as [|fuel]; [lia|]. pose proof (hcall_frame fuel stack m s Hg Hd Hv) as H.
      destruct (hcall (S fuel) stack m s) as [r s'| |]; [eauto|lia|contradiction].
    Qed.
    (** The message of a transaction *)
    Lemma txn_is_call fuel to from gas data value s : match etxn fuel to from gas data value s, hcall (S fuel) [] (tx_message to from gas data value) s with
      | Returns r s1, Returns r' s2 => r_status r = r_status r' /\ r_gas r = r_gas r' /\ s1 = s2
      | NoFuel, NoFuel | Undefined, Undefined => True | _, _ => False end.
    Proof.
      unfold execute_txn. cbn [host_call]. unfold host_call_body. destruct to as [to|]; cbn [m_kind tx_message].
      - destruct (call _ _ _ _ _ _ _ _ _ _); auto.
      - destruct (create _ _ _ _ _ _ _ _ _) as [r s1| |]; auto. destruct (is_revert (r_status r)); repeat split.
    Qed.
    Theorem txn_ok fuel to from gas data value s : gas < 2 ^ 63 -> (1024 <= fuel)%nat ->
      exists r s', etxn fuel to from gas data value s = Returns r s' /\ step db strict s s' /\ (0 <= r_gas r <= Z.of_N gas)%Z
        /\ (r_status r <> SUCCESS -> if is_creation (tx_message to from gas data value) then unchanged db (if balance_of db s from <? value then s else creation_attempted keccak db (tx_message to from gas data value) s) s' else unchanged db s s').
    Proof.
      intros Hg Hf. set (m := tx_message to from gas data value).
      assert (Eg : m_gas m = Z.of_N gas) by (cbn; unfold to_i64; destruct (N.ltb_spec gas (2 ^ 63)); [reflexivity|lia]).
      pose proof (hcall_frame fuel [] m s ltac:(lia) ltac:(cbn; lia) ltac:(unfold valid_caller, m; cbn; now destruct to)) as H.
      pose proof (txn_is_call fuel to from gas data value s) as T. fold m in T. 
      destruct (hcall (S fuel) [] m s) as [r' s2| |]; destruct (etxn fuel to from gas data value s) as [r s1| |]; try contradiction; [|change (m_depth m) with 0 in H; lia].
      destruct T as (E1 & E2 & ->). exists r, s2. destruct H as ((A & B) & C). split; [reflexivity|]. split; [exact A|]. rewrite E2, <- Eg. split; [exact B|]. rewrite E1. exact C.
    Qed.
    Theorem txn_final fuel to from gas data value s t : gas < 2 ^ 63 -> (1024 <= fuel)%nat -> total (balance_of db s) t -> t < 2 ^ 256 ->
      exists r s', etxn fuel to from gas data value s = Returns r s' /\ (0 <= r_gas r <= Z.of_N gas)%Z
        /\ (exists t', total (balance_of db s') t' /\ t' <= t /\ (strict = true -> t' = t))
        /\ (r_status r <> SUCCESS -> if is_creation (tx_message to from gas data value) then unchanged db (if balance_of db s from <? value then s else creation_attempted keccak db (tx_message to from gas data value) s) s' else unchanged db s s').
    Proof.
      intros Hg Hf T Ht. destruct (txn_ok fuel to from gas data value s Hg Hf) as (r & s' & E & (_ & F) & G & U). exists r, s'. split; [exact E|]. split; [exact G|]. split; [|exact U].
      apply total_balance in T. destruct (F t Ht T) as (t' & A & B). exists t'. split; [now apply total_balance|exact B].
    Qed.
  End Law.

  (** ** Exactly the value moves *)
  Definition codeof (s : ibs) (a : N) : bytes :=
    if bytes_eqb (codehash db s a) kEmptyHash then [] else match codes s !! codehash db s a with Some x => x | None => read_code db (codehash db s a) end.
  Lemma get_code_value s a : fst (get_code db s a) = codeof s a.
  Proof.
    unfold get_code, codeof, codehash. destruct (get_object db s a) as [o s1] eqn:E. rewrite <- (cur_of_obj _ _ _ _ _ E). apply get_object_spec in E as (_ & _ & Ec & _).
    destruct (current_of o) as [c|]; [|cbn [fst]; now rewrite (proj2 (bytes_eqb_eq _ _) eq_refl)]. destruct (bytes_eqb _ _); [reflexivity|]. rewrite Ec. now destruct (codes s !! a_code_hash c).
  Qed.
  Hypothesis Hdb : forall a k, read_storage db a 0 k = 0.

  (** [bump s s']: balances may differ, accounts may have come into being. *)
  Record bump (s s' : ibs) : Prop := {
    bp_nonce : forall x, nonce db s' x = nonce db s x;
    bp_hash : forall x, codehash db s' x = codehash db s x;
    bp_live : forall x, live db s x -> live db s' x;
    bp_cur : forall x k, currentv db s' x k = currentv db s x k;
    bp_orig : forall x k, originalv db s' x k = originalv db s x k;
    bp_logs : logs s' = logs s;
    bp_refund : refund s' = refund s;
    bp_sui : self_destructs s' = self_destructs s;
    bp_addr : accessed_addresses s' = accessed_addresses s;
    bp_keys : accessed_keys s' = accessed_keys s
  }.
  Lemma bump_trans a b c : bump a b -> bump b c -> bump a c.
  Proof. intros [] []. constructor; try congruence. auto. Qed.
  Lemma bump_quiet s s' : quiet db s s' -> bump s s'.
  Proof.
    intros (_ & [O C R S T A K] & Rf & _ & L). constructor; auto.
    - intros x. unfold nonce. now rewrite O.
    - intros x. unfold codehash. now rewrite O.
    - intros x. unfold live. now rewrite O.
  Qed.
  Lemma bump_balance s a f : bump s (touch (update_current db s a (fun c => with_balance c (f c))) a).
  Proof.
    destruct (balance_ev db Hdb s a f) as (X & _ & Nn & Ch & Rf & _). cbv zeta in *.
    destruct (update_current_ev db Hdb s a (fun c => with_balance c (f c))) as (_ & O & R); [reflexivity|].
    set (s1 := update_current db s a _) in *. destruct (touch_ev db s1 a) as (_ & P & _ & St).
    assert (Rt : (codes (touch s1 a), logs (touch s1 a), self_destructs (touch s1 a), accessed_addresses (touch s1 a), accessed_keys (touch s1 a)) = (codes s1, logs s1, self_destructs s1, accessed_addresses s1, accessed_keys s1)).
    { unfold touch. destruct (_ && _); reflexivity. }
    injection Rt as R1 R2 R3 R4 R5. unfold restx in R. injection R as T1 T2 T3 T4 T5 T6 T7 T8.
    assert (D : forall x k, deft db (obj db (touch s1 a) x) x k = deft db (obj db s x) x k).
    { intros x k. rewrite P, O. destruct (decide (x = a)) as [->|]; [|reflexivity]. unfold deft. cbn [o_initial o_current]. destruct (o_initial (obj db s a)); [|reflexivity].
      destruct (o_current (obj db s a)) as [y|]; [reflexivity|]. cbn. destruct (_ =? 0); [apply Hdb|reflexivity]. }
    assert (S : forall x, storage_of (touch s1 a) x = storage_of s x) by (intros x; unfold storage_of; now rewrite St, T1).
    constructor; auto; try congruence.
    - intros x Hx. apply X, Hx.
    - intros x k. unfold currentv. rewrite S. now apply cur_def.
    - intros x k. unfold originalv. rewrite S. now apply orig_def.
  Qed.
  Lemma bump_transfer s a b v : bump s (transfer db s a b v).
  Proof. unfold transfer, add_to_balance, subtract_from_balance. eapply bump_trans; apply bump_balance. Qed.
  Lemma bump_only s s' : bump s s' -> only_balances db s s'.
  Proof.
    intros []. constructor; auto.
    - intros a. now rewrite !nonce_of_nonce.
    - intros a. now rewrite !code_hash_of_ch.
    - intros a k. rewrite existing_live, liveb_spec. intros H. unfold get_current_storage. rewrite !storage_value.
      rewrite (proj2 (liveb_spec s a) H), (proj2 (liveb_spec s' a) (bp_live0 a H)). apply bp_cur0.
    - intros a k. rewrite existing_live, liveb_spec. intros H. unfold get_original_storage. rewrite !storage_value.
      rewrite (proj2 (liveb_spec s a) H), (proj2 (liveb_spec s' a) (bp_live0 a H)). apply bp_orig0.
  Qed.
  Lemma bump_code s s' a : bump s s' -> codes s' = codes s -> codeof s' a = codeof s a.
  Proof. intros [] E. unfold codeof. now rewrite bp_hash0, E. Qed.
  Lemma transfer_codes s a b v : codes (transfer db s a b v) = codes s.
  Proof.
    assert (G : forall s f a, (forall c, a_incarnation (f c) = a_incarnation c) -> codes (touch (update_current db s a f) a) = codes s).
    { intros x f y Hf. destruct (update_current_ev db Hdb x y f Hf) as (_ & _ & R). unfold restx in R. injection R as _ R _ _ _ _ _ _. unfold touch. destruct (_ && _); exact R. }
    unfold transfer, add_to_balance, subtract_from_balance. rewrite !G; reflexivity.
  Qed.

  Lemma moved_ext f g a b v x : (forall y, f y = g y) -> moved f a b v x = moved g a b v x.
  Proof. intros H. unfold moved. now rewrite !H. Qed.
  (** How a plain call begins. *)
  Lemma call_begins rec stack m s t : m_kind m = KCall -> m_static m = false -> m_value m <= balance_of db s (m_sender m) ->
    total (balance_of db s) t -> t < 2 ^ 256 ->
    exists s0 s1, back db s s0 /\ bump s s1 /\ ev db s0 s1 /\ (forall x, balance_of db s1 x = moved (balance_of db s) (m_sender m) (m_destination m) (m_value m) x)
      /\ call db rev pre_gas pre_run block_hash interp rec stack m s =
         if is_precompiled rev (m_destination m) then settle (take_snapshot s0) (run_precompiled rev pre_gas pre_run m) s1
         else match codeof s (m_destination m) with
              | [] => Returns (mkRes SUCCESS (m_gas m) [] 0) s1
              | code => match execute db rev block_hash interp rec stack m code s1 with Returns r s2 => settle (take_snapshot s0) r s2 | o => o end
              end.
  Proof.
    intros Hk Hs Hv T Ht. rewrite balance_of_bal in Hv. apply total_balance in T. unfold call. rewrite Hk.
    destruct (get_balance db s (m_sender m)) as [b s1] eqn:E1. destruct (get_balance_quiet _ _ _ _ _ E1) as (Q1 & ->).
    assert (C1 : codes s1 = codes s). { unfold get_balance in E1. destruct (get_object db s (m_sender m)) as [o x] eqn:E. injection E1 as _ <-. apply get_object_spec in E. apply E. }
    destruct (N.ltb_spec (bal db s (m_sender m)) (m_value m)) as [|_]; [lia|].
    unfold recipient_of. rewrite Hk. set (pc := is_precompiled rev (m_destination m)).
    destruct (if _ && _ && negb pc then let '(e, s) := exists_ db s1 (m_destination m) in (negb e, s) else (false, s1)) as [skip s2] eqn:E2.
    assert (Q2 : quiet db s1 s2 /\ codes s2 = codes s1 /\ (skip = true -> pc = false /\ m_value m = 0 /\ ~ live db s (m_destination m))).
    { destruct (_ && _ && negb pc) eqn:Ec.
      - destruct (exists_ db s1 (m_destination m)) as [e s3] eqn:Ee. injection E2 as <- <-. destruct (exists_quiet _ _ _ _ _ Ee) as (Q & Hl). split; [exact Q|].
        unfold exists_ in Ee. destruct (get_object db s1 (m_destination m)) as [o x] eqn:E. injection Ee as Eb <-. split; [apply get_object_spec in E; apply E|].
        intros He. apply andb_true_iff in Ec as (Ec & Ep). apply andb_true_iff in Ec as (Ev & _). apply negb_true_iff in Ep. apply N.eqb_eq in Ev. split; [exact Ep|]. split; [exact Ev|].
        destruct Q1 as (_ & Q1 & _). unfold live. rewrite <- (same_obj _ _ _ Q1). intros X. apply Hl in X. subst e. now rewrite X in He.
      - injection E2 as <- <-. split; [apply quiet_refl|split; [reflexivity|discriminate]]. }
    destruct Q2 as (Q2 & C2 & Hskip). pose proof (quiet_trans _ _ _ _ Q1 Q2) as Q12.
    assert (B12 : bump s s2) by (now apply bump_quiet).
    assert (Eb : forall x, bal db s2 x = bal db s x) by (destruct Q12 as (_ & Q & _); now apply bal_same).
    destruct skip.
    { destruct (Hskip eq_refl) as (Hpc & Hz & Hnl). exists s2, s2. split; [now apply back_step|]. split; [exact B12|]. split; [apply ev_refl|]. split.
      - intros x. unfold moved. rewrite !balance_of_bal, Eb, Hz. destruct (m_sender m =? m_destination m), (x =? m_sender m), (x =? m_destination m); lia.
      - rewrite Hpc. replace (codeof s (m_destination m)) with (@nil N); [reflexivity|]. unfold codeof, codehash, live in *. destruct (o_current (obj db s (m_destination m))); [exfalso; apply Hnl; discriminate|].
        now rewrite (proj2 (bytes_eqb_eq _ _) eq_refl). }
    rewrite Hs. fold (transfer db s2 (m_sender m) (m_destination m) (m_value m)).
    destruct (transfer_ok keccak db pre_gas pre_run block_hash Hdb s2 (m_sender m) (m_destination m) (m_value m)) as (X3 & _ & _ & _ & _ & Bm).
    pose proof (bump_transfer s2 (m_sender m) (m_destination m) (m_value m)) as B3. set (s3 := transfer db s2 (m_sender m) (m_destination m) (m_value m)) in *.
    assert (Mv : forall x, balance_of db s3 x = moved (balance_of db s) (m_sender m) (m_destination m) (m_value m) x).
    { intros x. rewrite balance_of_bal. rewrite (Bm t Ht); [|eapply total_ext; [|exact T]; intros; now rewrite Eb|now rewrite Eb]. apply moved_ext. intros y. now rewrite Eb, balance_of_bal. }
    destruct pc.
    { exists s2, s3. split; [now apply back_step|]. split; [eapply bump_trans; eassumption|]. split; [exact X3|]. split; [exact Mv|reflexivity]. }
    destruct (get_code db s3 (m_destination m)) as [code s4] eqn:Ec.
    assert (Hc : code = codeof s (m_destination m)).
    { pose proof (get_code_value s3 (m_destination m)) as G. rewrite Ec in G. cbn in G. rewrite G, (bump_code s2 s3 _ B3) by apply transfer_codes. apply bump_code; [exact B12|congruence]. }
    destruct (get_code_quiet _ _ _ _ _ Ec) as (Q4 & _).
    assert (B4' : forall x, balance_of db s4 x = moved (balance_of db s) (m_sender m) (m_destination m) (m_value m) x).
    { intros x. rewrite <- Mv, !balance_of_bal. destruct Q4 as (_ & Q & _). now apply bal_same. }
    rewrite Hc. destruct (codeof s (m_destination m)) as [|c0 cs].
    { exists s2, s4. split; [now apply back_step|]. split; [eapply bump_trans; [exact B12|]; eapply bump_trans; [exact B3|now apply bump_quiet]|].
      split; [eapply ev_trans; [exact X3|apply Q4]|]. split; [exact B4'|reflexivity]. }
    destruct (get_code_hash db s4 (m_destination m)) as [h s5] eqn:Eh. destruct (get_code_hash_quiet _ _ _ _ _ Eh) as (Q5 & _).
    exists s2, s5. split; [now apply back_step|]. split; [eapply bump_trans; [exact B12|]; eapply bump_trans; [exact B3|]; apply bump_quiet; eapply quiet_trans; eassumption|].
    split; [eapply ev_trans; [exact X3|]; eapply ev_trans; [apply Q4|apply Q5]|].
    split; [intros x; rewrite <- B4', !balance_of_bal; destruct Q5 as (_ & Q & _); now apply bal_same|].
    replace (with_destination m (m_destination m)) with m by (unfold with_destination; now destruct m). reflexivity.
  Qed.

  Theorem plain_transfer fuel stack m s t : m_kind m = KCall -> m_static m = false ->
    is_precompiled rev (m_destination m) = false -> fst (get_code db s (m_destination m)) = [] ->
    m_value m <= balance_of db s (m_sender m) -> total (balance_of db s) t -> t < 2 ^ 256 ->
    exists s', hcall (S fuel) stack m s = Returns (mkRes SUCCESS (m_gas m) [] 0) s'
      /\ (forall x, balance_of db s' x = moved (balance_of db s) (m_sender m) (m_destination m) (m_value m) x) /\ only_balances db s s'.
  Proof.
    intros Hk Hs Hp Hc Hv T Ht. rewrite get_code_value in Hc.
    destruct (call_begins (hcall fuel) stack m s t Hk Hs Hv T Ht) as (s0 & s1 & _ & B & _ & Mv & E). rewrite Hp, Hc in E.
    exists s1. split; [cbn [host_call]; unfold host_call_body; rewrite Hk; exact E|]. split; [exact Mv|now apply bump_only].
  Qed.
  Theorem code_transfer fuel stack m s t : m_kind m = KCall -> m_static m = false ->
    is_precompiled rev (m_destination m) = false -> fst (get_code db s (m_destination m)) <> [] ->
    m_value m <= balance_of db s (m_sender m) -> total (balance_of db s) t -> t < 2 ^ 256 ->
    exists s1, (forall x, balance_of db s1 x = moved (balance_of db s) (m_sender m) (m_destination m) (m_value m) x) /\ only_balances db s s1
      /\ hcall (S fuel) stack m s =
         match run db rev block_hash (hcall fuel (m_destination m :: stack)) (interp m (fst (get_code db s (m_destination m)))) s1 with
         | Returns r s2 =>
           match r_status r with
           | SUCCESS => Returns r s2
           | REVERT => Returns r (match hcall (S fuel) stack m s with Returns _ s3 => s3 | _ => s end)
           | st => Returns (mkRes st 0 (r_output r) (r_create_address r)) (match hcall (S fuel) stack m s with Returns _ s3 => s3 | _ => s end)
           end
         | o => o
         end.
  Proof.
    intros Hk Hs Hp Hc Hv T Ht. rewrite get_code_value in *.
    destruct (call_begins (hcall fuel) stack m s t Hk Hs Hv T Ht) as (s0 & s1 & _ & B & _ & Mv & E). rewrite Hp in E.
    exists s1. split; [exact Mv|]. split; [now apply bump_only|].
    assert (Eh : hcall (S fuel) stack m s = call db rev pre_gas pre_run block_hash interp (hcall fuel) stack m s) by (cbn [host_call]; unfold host_call_body; now rewrite Hk).
    rewrite Eh, E. unfold execute. destruct (codeof s (m_destination m)) as [|c0 cs]; [congruence|]. destruct (run _ _ _ _ _ _) as [r s2| |]; [|reflexivity|reflexivity].
    unfold settle. destruct (r_status r) eqn:Er; cbn [is_success is_revert]; rewrite ?Er; reflexivity.
  Qed.
  Theorem precompiled_call fuel stack m s t out : m_kind m = KCall -> m_static m = false ->
    is_precompiled rev (m_destination m) = true -> pre_gas (m_destination m) (m_input m) rev < 2 ^ 63 ->
    (Z.of_N (pre_gas (m_destination m) (m_input m) rev) <= m_gas m)%Z -> pre_run (m_destination m) (m_input m) = Some out ->
    m_value m <= balance_of db s (m_sender m) -> total (balance_of db s) t -> t < 2 ^ 256 ->
    exists s', hcall (S fuel) stack m s = Returns (mkRes SUCCESS (m_gas m - Z.of_N (pre_gas (m_destination m) (m_input m) rev)) out 0) s'
      /\ (forall x, balance_of db s' x = moved (balance_of db s) (m_sender m) (m_destination m) (m_value m) x) /\ only_balances db s s'.
  Proof.
    intros Hk Hs Hp Hg Hg' Ho Hv T Ht. destruct (call_begins (hcall fuel) stack m s t Hk Hs Hv T Ht) as (s0 & s1 & _ & B & _ & Mv & E). rewrite Hp in E.
    exists s1. split; [|split; [exact Mv|now apply bump_only]]. cbn [host_call]. unfold host_call_body. rewrite Hk, E. unfold run_precompiled.
    assert (Eg : to_i64 (pre_gas (m_destination m) (m_input m) rev) = Z.of_N (pre_gas (m_destination m) (m_input m) rev)) by (unfold to_i64; destruct (N.ltb_spec (pre_gas (m_destination m) (m_input m) rev) (2 ^ 63)); [reflexivity|lia]).
    rewrite Eg, Ho. destruct (Z.ltb_spec (Z.of_N (pre_gas (m_destination m) (m_input m) rev)) 0); [lia|]. destruct (Z.ltb_spec (m_gas m) (Z.of_N (pre_gas (m_destination m) (m_input m) rev))); [lia|]. reflexivity.
  Qed.
  Theorem insufficient fuel stack m s : m_kind m <> KDelegatecall -> balance_of db s (m_sender m) < m_value m ->
    exists s', hcall (S fuel) stack m s = Returns (mkRes INSUFFICIENT_BALANCE (m_gas m) [] 0) s' /\ unchanged db s s'.
  Proof.
    intros Hk Hv. rewrite balance_of_bal in Hv.
    assert (U : forall s', snd (get_balance db s (m_sender m)) = s' -> unchanged db s s').
    { intros s' <-. destruct (get_balance db s (m_sender m)) as [b s1] eqn:E. apply back_unchanged, back_step. eapply get_balance_quiet; eassumption. }
    exists (snd (get_balance db s (m_sender m))). split; [|now apply U]. cbn [host_call]. unfold host_call_body, create, call.
    destruct (m_kind m); try congruence;
      destruct (get_balance db s (m_sender m)) as [b s1] eqn:E; destruct (get_balance_quiet _ _ _ _ _ E) as (_ & ->); destruct (N.ltb_spec (bal db s (m_sender m)) (m_value m)); try lia; reflexivity.
  Qed.

  (** ** Creation *)
  Theorem created fuel stack m s r s' : is_creation m = true -> hcall (S fuel) stack m s = Returns r s' -> r_status r = SUCCESS ->
    r_create_address r = new_address keccak db m s
    /\ m_value m <= balance_of db s (m_sender m)
    /\ (new_address keccak db m s <> m_sender m -> nonce_of db s (new_address keccak db m s) = 0 /\ code_hash_of db s (new_address keccak db m s) = kEmptyHash)
    /\ (EVMC_HOMESTEAD <= rev -> exists code, code_hash_of db s' (new_address keccak db m s) = keccak code
          /\ (EVMC_SPURIOUS_DRAGON <= rev -> blen code <= 24576) /\ (EVMC_LONDON <= rev -> hd_error code <> Some 0xEF)).
  Proof.
    intros Hc E Hs. cbn [host_call] in E. unfold host_call_body in E.
    assert (E' : exists r0, create keccak db rev block_hash interp (hcall fuel) stack m s = Returns r0 s' /\ r_status r0 = SUCCESS /\ r_create_address r0 = r_create_address r).
    { unfold is_creation in Hc. destruct (m_kind m); try discriminate; destruct (create _ _ _ _ _ _ _ _ _) as [r0 s0| |]; try discriminate;
        (injection E as <- <-; exists r0; destruct (is_revert (r_status r0)) eqn:Er; cbn [r_status r_create_address] in *; auto). }
    clear E. destruct E' as (r0 & E & Hs0 & <-). unfold create in E.
    destruct (get_balance db s (m_sender m)) as [b s1] eqn:E1. destruct (get_balance_quiet _ _ _ _ _ E1) as (Q1 & ->).
    rewrite balance_of_bal. destruct (N.ltb_spec (bal db s (m_sender m)) (m_value m)) as [|Hv]; [injection E as <- _; discriminate|].
    destruct (get_nonce db s1 (m_sender m)) as [n s2] eqn:E2. destruct (get_nonce_quiet _ _ _ _ _ E2) as (Q2 & ->). pose proof (quiet_trans _ _ _ _ Q1 Q2) as Q12.
    assert (En : nonce db s1 (m_sender m) = nonce db s (m_sender m)) by (unfold nonce; destruct Q1 as (_ & Q & _); now rewrite (same_obj _ _ _ Q)).
    rewrite En in E. fold (contract_address keccak db m s) in E. rewrite new_address_eq. set (c := contract_address keccak db m s) in *.
    set (s3 := set_nonce db s2 _ _) in E. destruct (access_account s3 c) as [w s4] eqn:E4.
    destruct (get_nonce db s4 c) as [cn s5] eqn:E5. destruct (get_nonce_quiet _ _ _ _ _ E5) as (Q5 & Hcn).
    destruct (if negb (cn =? 0) then (kEmptyHash, s5) else get_code_hash db s5 c) as [ch s6] eqn:E6.
    destruct (negb (cn =? 0) || negb (bytes_eqb ch kEmptyHash)) eqn:Ecol; [injection E as <- _; discriminate|].
    apply orb_false_iff in Ecol as (Ec1 & Ec2). rewrite Ec1 in E6. apply negb_false_iff in Ec1, Ec2. apply N.eqb_eq in Ec1. apply bytes_eqb_eq in Ec2.
    destruct (get_code_hash_quiet _ _ _ _ _ E6) as (_ & Hch).
    assert (K : c <> m_sender m -> nonce_of db s c = 0 /\ code_hash_of db s c = kEmptyHash).
    { intros Nc. rewrite nonce_of_nonce, code_hash_of_ch. destruct (access_account_ev db _ _ _ _ E4) as (_ & O4).
      destruct (set_nonce_ev db Hdb s2 (m_sender m) ((nonce db s (m_sender m) + 1) mod 2 ^ 64)) as (_ & _ & Nn & Nh & _). fold s3 in Nn, Nh.
      destruct Q12 as (_ & Qs & _). split.
      - rewrite <- Ec1, Hcn. unfold nonce at 2. rewrite O4. change (nonce db s c = nonce db s3 c). rewrite Nn. destruct (decide (c = m_sender m)); [contradiction|]. unfold nonce. now rewrite (same_obj _ _ _ Qs).
      - rewrite <- Ec2, Hch. destruct Q5 as (_ & Q5 & _). unfold codehash at 2. rewrite (same_obj _ _ _ Q5), O4. change (codehash db s c = codehash db s3 c). rewrite Nh. unfold codehash. now rewrite (same_obj _ _ _ Qs). }
    set (s9 := add_to_balance db _ c (m_value m)) in E.
    destruct (execute _ _ _ _ _ _ _ _ _) as [r1 s10| |]; try discriminate.
    destruct (deploy keccak db rev c r1 s10) as [r2 s11] eqn:Ed.
    assert (Es2 : is_success (r_status r2) = true).
    { destruct (is_success (r_status r2)) eqn:X; [reflexivity|]. unfold settle in E. rewrite X in E. injection E as <- _. destruct (is_revert (r_status r2)); cbn [r_status] in Hs0; rewrite Hs0 in X; discriminate. }
    rewrite Es2 in E. unfold settle in E. cbn [r_status] in E. rewrite Es2 in E. injection E as <- <-. cbn [r_create_address].
    split; [reflexivity|]. split; [exact Hv|]. split; [exact K|]. intros Hh.
    unfold deploy in Ed. destruct (is_success (r_status r1)) eqn:X1; [|injection Ed as <- _; congruence].
    destruct ((EVMC_LONDON <=? rev) && _) eqn:X2; [injection Ed as <- _; discriminate|].
    destruct ((EVMC_SPURIOUS_DRAGON <=? rev) && _) eqn:X3; [injection Ed as <- _; discriminate|].
    destruct ((0 <=? r_gas r1)%Z && _).
    - injection Ed as _ <-. exists (r_output r1). split; [|split].
      + rewrite code_hash_of_ch. unfold set_code. set (sx := update_current db s10 c _).
        destruct (update_current_ev db Hdb s10 c (fun a => with_code_hash a (keccak (r_output r1)))) as (_ & O & _); [reflexivity|]. fold sx in O.
        assert (G : codehash db sx c = keccak (r_output r1)) by (unfold codehash; rewrite O; destruct (decide (c = c)); [reflexivity|congruence]).
        destruct (codes sx !! _); exact G.
      + intros L. apply N.leb_le in L. rewrite L in X3. cbn [andb] in X3. apply N.ltb_ge in X3. exact X3.
      + intros L. apply N.leb_le in L. rewrite L in X2. cbn [andb] in X2. destruct (r_output r1) as [|b0 ?]; [discriminate|]. cbn. apply N.eqb_neq in X2. congruence.
    - apply N.leb_le in Hh. rewrite Hh in Ed. injection Ed as <- _. discriminate.
  Qed.
End Lemmas.
