(** Blocks as a whole. *)
From stdpp Require Import gmap.
From Coq Require Import ZArith.
From Verif Require Import Base BaseFacts RlpModel TxModel BlockModel TypesModel TypesProofs TypesLemmas ChainModel StateModel JournalProofs EvmModel EvmSpec EvmProofs EvmLemmas ProcessorModel ProcessorSpec ProcessorProofs ProcessorProofs2.

Lemma last_default (k : list N) a d d' : List.last (a :: k) d = List.last (a :: k) d'.
Proof. revert a. induction k as [|b k IH]; intros; [reflexivity|]. apply (IH b). Qed.
Lemma running_last acc l : List.last (running acc l) acc = acc + fold_right N.add 0 l.
Proof.
  revert acc. induction l as [|x l IH]; intros acc; [cbn; lia|]. cbn [running fold_right]. rewrite N.add_assoc, <- IH.
  destruct l as [|y l]; [reflexivity|]. change (List.last (acc + x :: running (acc + x) (y :: l)) acc) with (List.last (running (acc + x) (y :: l)) acc). apply last_default.
Qed.
Lemma last_map {A B} (f : A -> B) l d : List.last (map f l) (f d) = f (List.last l d).
Proof. induction l as [|a [|b l] IH]; [reflexivity|reflexivity|]. exact IH. Qed.
Lemma join_all keccak rs : forall acc, Forall (fun rc => rc_bloom rc = logs_bloom keccak (rc_logs rc)) rs ->
  fold_left (fun b r => join_bloom b (rc_bloom r)) rs (logs_bloom keccak acc) = logs_bloom keccak (acc ++ concat (map rc_logs rs)).
Proof.
  induction rs as [|r rs IH]; intros acc H; [cbn; now rewrite app_nil_r|]. apply Forall_cons_iff in H as (Hr & H). cbn [fold_left map concat]. rewrite Hr, join_logs_bloom, IH by exact H. now rewrite app_assoc.
Qed.

Section Blocks.
  Variable keccak : bytes -> bytes.
  Variable db : db_reader.
  Variable rev : N.
  Variable pre_gas : N -> bytes -> N -> N.
  Variable pre_run : N -> bytes -> option bytes.
  Variable block_hash : N -> bytes.
  Variable interp : message -> bytes -> prog.
  Variable fuel : nat.
  Variable iterate : gset N -> list N.
  Variable header : block_header.
  Variable config : chain_config.
  Notation eblock := (execute_block keccak db rev pre_gas pre_run block_hash interp fuel iterate header config).
  Variable strict : bool.
  Hypothesis Hdb : forall a k, read_storage db a 0 k = 0.
  Hypothesis Hlaw : lawful strict interp.
  Hypothesis Hfuel : (1024 <= fuel)%nat.
  Hypothesis Hiter : forall X, Permutation (iterate X) (elements X).

  Theorem block_ok ts ommers s tt : hd_gas_limit header < 2 ^ 63 -> hd_number header < 2 ^ 64 -> Forall (prevalidated rev header) ts ->
    Forall (fun o => hd_number o < hd_number header /\ hd_number header <= hd_number o + 8) ommers ->
    total (balance_of db s) tt -> tt + all_rewards rev header ommers < 2 ^ 256 ->
    exists rs err s' used, eblock ts ommers s = Some (rs, err, s') /\ receipts_ok keccak rev header ts rs used /\ (err = kOk -> length rs = length ts)
      /\ exists tt', total (balance_of db s') tt' /\ tt' + fold_right N.add 0 used * base_fee_of header <= tt + match err with kOk => all_rewards rev header ommers | _ => 0 end.
  Proof.
    intros Hh Hn Hpv Ho T Ht. unfold execute_block.
    set (s0 := match cfg_dao_block config with Some d => _ | None => s end).
    assert (T0 : total (balance_of db s0) tt).
    { unfold s0. destruct (cfg_dao_block config); [|exact T]. destruct (_ =? _); [|exact T]. apply dao_ok; [exact Hdb|exact T|lia]. }
    clearbody s0. clear T s.
    destruct (transactions_ok keccak db rev pre_gas pre_run block_hash interp fuel iterate header Hdb strict Hlaw Hfuel Hiter ts 0 s0 tt Hh (N.le_0_l _) Hpv T0 ltac:(lia)) as (rs & err & s1 & used & E & M & Ln & Lr & Lk & Lf & Lu & Lb & t1 & T1 & L1).
    assert (RO : receipts_ok keccak rev header ts rs used).
    { constructor; try assumption. eapply Forall2_impl; [exact Lu|]. intros t u (A & B). split; assumption. }
    rewrite E. destruct err; try (eexists rs, _, s1, used; split; [reflexivity|]; split; [exact RO|]; split; [exact Lk|]; exists t1; split; [exact T1|lia]).
    destruct (rewards_ok db rev header Hdb ommers s1 t1 Ho Hn T1 ltac:(lia)) as (_ & T2 & _).
    exists rs, kOk, (apply_rewards db rev header ommers s1), used. split; [reflexivity|]. split; [exact RO|]. split; [exact Lk|].
    exists (t1 + all_rewards rev header ommers). split; [exact T2|]. lia.
  Qed.

  Variable root : list receipt -> bytes.
  Notation run := (run_block keccak db rev pre_gas pre_run block_hash interp fuel iterate root config header).
  Theorem run_ok ts ommers tt : hd_gas_limit header < 2 ^ 63 -> hd_number header < 2 ^ 64 -> Forall (prevalidated rev header) ts ->
    Forall (fun o => hd_number o < hd_number header /\ hd_number header <= hd_number o + 8) ommers ->
    total (balance_of db ibs_new) tt -> tt + all_rewards rev header ommers < 2 ^ 256 ->
    exists rs err w, run ts ommers = Some (rs, err, w)
      /\ (err <> kOk -> w = None)
      /\ (err = kOk -> exists s' used tt', w = Some s' /\ receipts_ok keccak rev header ts rs used /\ length rs = length ts
            /\ hd_gas_used header = fold_right N.add 0 used /\ (EVMC_BYZANTIUM <= rev -> hd_receipts_root header = root rs)
            /\ hd_logs_bloom header = logs_bloom keccak (concat (map rc_logs rs))
            /\ total (balance_of db s') tt' /\ tt' + hd_gas_used header * base_fee_of header <= tt + all_rewards rev header ommers).
  Proof.
    intros Hh Hn Hpv Ho T Ht. destruct (block_ok ts ommers ibs_new tt Hh Hn Hpv Ho T Ht) as (rs & err & s' & used & E & RO & Lk & tt' & T' & L').
    unfold run_block. rewrite E. clear E.
    destruct err; try (eexists rs, _, None; split; [reflexivity|]; split; [reflexivity|discriminate]).
    set (gas := match rs with [] => 0 | _ => _ end).
    assert (Eg : gas = fold_right N.add 0 used).
    { pose proof (ro_running _ _ _ _ _ _ RO) as M. pose proof (running_last 0 used) as R. rewrite <- M in R. unfold gas. destruct rs as [|r rs]; [exact R|].
      rewrite <- last_map. cbn [rc_cumulative_gas_used]. exact R. }
    clearbody gas. subst gas.
    destruct (N.eqb_spec (fold_right N.add 0 used) (hd_gas_used header)) as [Eu|]; cbn [negb]; [|eexists rs, _, None; split; [reflexivity|]; split; [reflexivity|discriminate]].
    destruct ((EVMC_BYZANTIUM <=? rev) && negb (bytes_eqb (root rs) (hd_receipts_root header))) eqn:Er; [eexists rs, _, None; split; [reflexivity|]; split; [reflexivity|discriminate]|].
    assert (Hb : Forall (fun rc => rc_bloom rc = logs_bloom keccak (rc_logs rc)) rs).
    { pose proof (ro_each _ _ _ _ _ _ RO) as X. clear - X. induction X as [|? ? ? ? (_ & B) _ IH]; constructor; assumption. }
    change (repeat 0 256) with (logs_bloom keccak []). rewrite (join_all keccak rs [] Hb). cbn [app].
    destruct (bytes_eqb (logs_bloom keccak (concat (map rc_logs rs))) (hd_logs_bloom header)) eqn:El; cbn [negb]; [|eexists rs, _, None; split; [reflexivity|]; split; [reflexivity|discriminate]].
    apply bytes_eqb_eq in El. exists rs, kOk, (Some s'). split; [reflexivity|]. split; [intros X; now destruct X|]. intros _. exists s', used, tt'.
    split; [reflexivity|]. split; [exact RO|]. split; [now apply Lk|]. split; [now symmetry|]. split.
    { intros Hr. apply N.leb_le in Hr. rewrite Hr in Er. cbn in Er. apply negb_false_iff, bytes_eqb_eq in Er. now symmetry. }
    split; [now symmetry|]. split; [exact T'|]. rewrite <- Eu. exact L'.
  Qed.
  (** Conversely a block is rejected only for a reason. *)
  Theorem run_complete ts ommers rs s' : eblock ts ommers ibs_new = Some (rs, kOk, s') ->
    (match rs with [] => 0 | _ => rc_cumulative_gas_used (List.last rs (mkReceipt kLegacy false 0 [] [])) end) = hd_gas_used header ->
    (EVMC_BYZANTIUM <= rev -> root rs = hd_receipts_root header) ->
    fold_left (fun b r => join_bloom b (rc_bloom r)) rs (repeat 0 256) = hd_logs_bloom header ->
    run ts ommers = Some (rs, kOk, Some s').
  Proof.
    intros E G R B. unfold run_block. rewrite E, G, N.eqb_refl. cbn [negb]. rewrite B, (proj2 (bytes_eqb_eq _ _) eq_refl). cbn [negb].
    destruct (N.leb_spec EVMC_BYZANTIUM rev) as [H|H]; cbn [andb]; [|reflexivity]. rewrite (R H), (proj2 (bytes_eqb_eq _ _) eq_refl). reflexivity.
  Qed.
End Blocks.

Section Warm.
  Variable db : db_reader.
  Hypothesis Hdb : forall a k, read_storage db a 0 k = 0.
  Variable header : block_header.
  Definition acc (s : ibs) := (accessed_addresses s, accessed_keys s).
  Lemma update_acc s a f : (forall c, a_incarnation (f c) = a_incarnation c) -> acc (update_current db s a f) = acc s.
  Proof. intros H. destruct (update_current_ev db Hdb s a f H) as (_ & _ & R). unfold restx in R. unfold acc. congruence. Qed.
  Lemma touch_acc s a : acc (touch s a) = acc s.
  Proof. unfold touch. destruct (_ && _); reflexivity. Qed.
  Lemma access_acc s a : acc (snd (access_account s a)) = ({[a]} ∪ accessed_addresses s, accessed_keys s).
  Proof. unfold access_account. cbn [snd]. destruct (bool_decide _); reflexivity. Qed.
  Lemma storage_acc s a k : acc (snd (access_storage s a k)) = (accessed_addresses s, {[(a, k)]} ∪ accessed_keys s).
  Proof. unfold access_storage. cbn [snd]. destruct (bool_decide _); reflexivity. Qed.
  Lemma keys_acc a l : forall s, let s' := fold_left (fun s k => snd (access_storage s a (be_to_N k))) l s in
    accessed_addresses s' = accessed_addresses s /\ forall p, p ∈ accessed_keys s' <-> p ∈ accessed_keys s \/ exists b, In b l /\ p = (a, be_to_N b).
  Proof.
    induction l as [|k l IH]; intros s; cbn zeta.
    - cbn. split; [reflexivity|]. intros p. split; [now left|]. intros [H|(b & [] & _)]. exact H.
    - cbn [fold_left]. destruct (IH (snd (access_storage s a (be_to_N k)))) as (A & B). pose proof (storage_acc s a (be_to_N k)) as E. unfold acc in E. apply pair_equal_spec in E as (E1 & E2). cbn zeta in *.
      split; [now rewrite A|]. intros p. rewrite B, E2. rewrite elem_of_union, elem_of_singleton. cbn [In]. split.
      + intros [[->|H]|(b & Hb & ->)]; [right; eauto|now left|right; eauto].
      + intros [H|(b & [<-|Hb] & ->)]; [left; now right|left; now left|right; eauto].
  Qed.
  Lemma list_acc l : forall s, let s' := fold_left (fun s e => fold_left (fun s k => snd (access_storage s (be_to_N (ale_account e)) (be_to_N k))) (ale_storage_keys e) (snd (access_account s (be_to_N (ale_account e))))) l s in
    (forall x, x ∈ accessed_addresses s' <-> x ∈ accessed_addresses s \/ exists e, In e l /\ be_to_N (ale_account e) = x)
    /\ forall p, p ∈ accessed_keys s' <-> p ∈ accessed_keys s \/ exists e b, In e l /\ In b (ale_storage_keys e) /\ p = (be_to_N (ale_account e), be_to_N b).
  Proof.
    induction l as [|e l IH]; intros s; cbn zeta.
    - cbn. split; intros p; split; try (now left); intros [H|H]; try exact H; [destruct H as (? & [] & _)|destruct H as (? & ? & [] & _)].
    - cbn [fold_left]. set (s1 := snd (access_account s (be_to_N (ale_account e)))). destruct (keys_acc (be_to_N (ale_account e)) (ale_storage_keys e) s1) as (A1 & B1). cbn zeta in *.
      set (s2 := fold_left _ (ale_storage_keys e) s1) in *. destruct (IH s2) as (A2 & B2). cbn zeta in *. pose proof (access_acc s (be_to_N (ale_account e))) as E. fold s1 in E. unfold acc in E. apply pair_equal_spec in E as (E1 & E2).
      split; intros p.
      + rewrite A2, A1, E1, elem_of_union, elem_of_singleton. cbn [In]. split.
        * intros [[->|H]|(f & Hf & <-)]; [right; eauto|now left|right; eauto].
        * intros [H|(f & [<-|Hf] & <-)]; [left; now right|left; now left|right; eauto].
      + rewrite B2, B1, E2. cbn [In]. split.
        * intros [[H|(b & Hb & ->)]|(f & b & Hf & Hb & ->)]; [now left|right; exists e, b; auto|right; exists f, b; auto].
        * intros [H|(f & b & [<-|Hf] & Hb & ->)]; [left; now left|left; right; eauto|right; exists f, b; auto].
  Qed.
  Theorem warm_start t s : let s1 := prepare db header t s in
    (forall a, a ∈ accessed_addresses s1 <-> a = sender_of t \/ recipient_of t = Some a \/ listed_address t a)
    /\ (forall a k, (a, k) ∈ accessed_keys s1 <-> listed_key t a k).
  Proof.
    cbv zeta. unfold prepare. change (tx_sender t) with (sender_of t). change (tx_recipient t) with (recipient_of t).
    set (s1 := snd (access_account (clear_journal_and_substate s) (sender_of t))). set (s2 := subtract_from_balance db s1 _ _).
    assert (E2 : acc s2 = ({[sender_of t]} ∪ ∅, ∅)).
    { unfold s2, subtract_from_balance. rewrite touch_acc, update_acc by reflexivity. unfold s1. rewrite access_acc. reflexivity. }
    set (s3 := match recipient_of t with Some to => _ | None => s2 end).
    assert (E3 : (forall a, a ∈ accessed_addresses s3 <-> a = sender_of t \/ recipient_of t = Some a) /\ accessed_keys s3 = ∅).
    { unfold acc in E2. apply pair_equal_spec in E2 as (A2 & K2). unfold s3. destruct (recipient_of t) as [to|].
      - assert (E : acc (set_nonce db (snd (access_account s2 to)) (sender_of t) (add64 (tx_nonce t) 1)) = ({[to]} ∪ accessed_addresses s2, accessed_keys s2)).
        { unfold set_nonce. rewrite update_acc by reflexivity. apply access_acc. }
        unfold acc in E. apply pair_equal_spec in E as (A3 & K3). rewrite A3, K3, A2, K2. split; [|reflexivity]. intros a. rewrite !elem_of_union, !elem_of_singleton, elem_of_empty.
        split; [intros [->|[->|[]]]; auto|intros [->|H]; [auto|injection H as ->; auto]].
      - rewrite A2, K2. split; [|reflexivity]. intros a. rewrite elem_of_union, elem_of_singleton, elem_of_empty. split; [intros [->|[]]; auto|intros [->|H]; [auto|discriminate]]. }
    clearbody s3. destruct E3 as (A3 & K3). unfold warm_access_list. destruct (list_acc (tx_access_list t) s3) as (A4 & K4). cbn zeta in *. split.
    - intros a. rewrite A4, A3. unfold listed_address. tauto.
    - intros a k. rewrite K4, K3. unfold listed_key. split.
      + intros [H|(e & b & He & Hb & [= -> ->])]; [now apply elem_of_empty in H|]. exists e, b. auto.
      + intros (e & b & He & <- & Hb & <-). right. exists e, b. auto.
  Qed.
End Warm.

Section Valid.
  Variable db : db_reader.
  Variable header : block_header.
  Theorem validate_spec cum t s : cum <= hd_gas_limit header -> hd_gas_limit header < 2 ^ 64 ->
    let '(err, s0) := validate_transaction db header cum t s in
    (err = kOk <-> (exists a, tx_from t = Some a) /\ nonce_of db s (sender_of t) = tx_nonce t
        /\ tx_gas_limit t * tx_max_fee t + tx_value t <= balance_of db s (sender_of t) /\ cum + tx_gas_limit t <= hd_gas_limit header)
    /\ (forall x, balance_of db s0 x = balance_of db s x /\ nonce_of db s0 x = nonce_of db s x /\ code_hash_of db s0 x = code_hash_of db s x).
  Proof.
    intros Hc Hh. destruct (validate_transaction db header cum t s) as [err s0] eqn:E. split.
    - split.
      + intros ->. destruct (validate_ok db header cum t s s0 E) as (_ & N0 & B0 & G0). rewrite nonce_of_nonce, balance_of_bal. rewrite BlockHashProofs.sub64_le in G0 by assumption.
        split; [|repeat split; try assumption; lia]. unfold validate_transaction in E. destruct (tx_from t); [eauto|discriminate].
      + intros ((a & Ha) & N0 & B0 & G0). unfold validate_transaction in E. unfold sender_of in *. rewrite Ha in *. rewrite nonce_of_nonce in N0. rewrite balance_of_bal in B0.
        destruct (get_nonce db s (be_to_N a)) as [n s1] eqn:E1. destruct (get_nonce_quiet _ _ _ _ _ E1) as (Q1 & ->). rewrite N0, N.eqb_refl in E. cbn [negb] in E.
        destruct (get_balance db s1 (be_to_N a)) as [b s2] eqn:E2. destruct (get_balance_quiet _ _ _ _ _ E2) as (Q2 & ->). destruct (kept_quiet _ _ _ Q1) as (_ & B1). rewrite B1 in E.
        destruct (N.ltb_spec (JournalProofs.bal db s (be_to_N a)) (tx_gas_limit t * tx_max_fee t + tx_value t)); [lia|]. unfold available_gas in E. rewrite BlockHashProofs.sub64_le in E by assumption.
        destruct (N.ltb_spec (hd_gas_limit header - cum) (tx_gas_limit t)); [lia|]. now injection E.
    - destruct (kept_quiet _ _ _ (validate_quiet db header _ _ _ _ _ E)) as ((Kn & Kc & _) & B). intros x. rewrite !balance_of_bal, !nonce_of_nonce, !code_hash_of_ch. auto.
  Qed.
End Valid.
