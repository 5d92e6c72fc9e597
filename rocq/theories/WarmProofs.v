(** Warm and cold accesses while code runs (EIP-2929). *)
From stdpp Require Import gmap.
From Coq Require Import ZArith.
From Verif Require Import Base BaseFacts RlpModel TypesModel ChainModel StateModel JournalProofs EvmModel EvmSpec EvmProofs EvmLemmas EvmCases.

Section Warm.
  Variable db : db_reader.

  Lemma undo_sets bl : forall s, accessed_addresses (undo_blocks s bl) ⊆ accessed_addresses s /\ accessed_keys (undo_blocks s bl) ⊆ accessed_keys s.
  Proof.
    intros s. rewrite <- undo_flat. generalize (flatb bl). clear bl. intros l. revert s. induction l as [|d t IH]; intros s; [split; reflexivity|]. cbn [fold_left].
    destruct (IH (revert_delta s d)) as (A & B). assert (C : accessed_addresses (revert_delta s d) ⊆ accessed_addresses s /\ accessed_keys (revert_delta s d) ⊆ accessed_keys s).
    { destruct d; cbn; split; try reflexivity; set_solver. }
    destruct C as (C & D). split; etrans; eassumption.
  Qed.
  Lemma ev_sets s s' : ev db s s' -> accessed_addresses s ⊆ accessed_addresses s' /\ accessed_keys s ⊆ accessed_keys s'.
  Proof.
    intros H. destruct (ev_blocks _ _ _ H) as (new & _ & _ & Sm). destruct (undo_sets new s') as (A & B). rewrite (same_addr _ _ _ Sm) in A. rewrite (same_keys _ _ _ Sm) in B. now split.
  Qed.
End Warm.

Section Calls.
  Variable db : db_reader.
  Variable rev : N.
  Variable block_hash : N -> bytes.

  (** The answer given to the code, and the state in which it goes on. *)
  Lemma account_access callf a k s : exists cold s', run db rev block_hash callf (PAccessAccount a k) s = run db rev block_hash callf (k cold) s'
    /\ (cold = true <-> ~ (1 <= a <= number_of_precompiles rev) /\ a ∉ accessed_addresses s)
    /\ (forall x, x ∈ accessed_addresses s' <-> x ∈ accessed_addresses s \/ (x = a /\ ~ (1 <= a <= number_of_precompiles rev)))
    /\ accessed_keys s' = accessed_keys s /\ objects s' = objects s /\ storages s' = storages s /\ codes s' = codes s
    /\ logs s' = logs s /\ refund s' = refund s /\ self_destructs s' = self_destructs s /\ touched s' = touched s.
  Proof.
    cbn [run]. unfold host_access_account, is_precompiled.
    assert (P : (if a =? 0 then false else a <=? number_of_precompiles rev) = true <-> 1 <= a <= number_of_precompiles rev).
    { destruct (N.eqb_spec a 0); [split; [discriminate|lia]|]. destruct (N.leb_spec a (number_of_precompiles rev)); split; try discriminate; try lia; auto. }
    destruct (if a =? 0 then false else a <=? number_of_precompiles rev).
    - exists false, s. split; [reflexivity|]. split; [split; [discriminate|tauto]|]. split; [intros x; tauto|]. repeat split.
    - unfold access_account. exists (bool_decide (a ∉ accessed_addresses s)). eexists. split; [reflexivity|].
      split; [rewrite bool_decide_eq_true; split; [intros H; split; [intros C; apply P in C; discriminate|exact H]|tauto]|].
      assert (Np : ~ (1 <= a <= number_of_precompiles rev)) by (intros C; apply P in C; discriminate).
      destruct (bool_decide _); cbn; (split; [intros x; rewrite elem_of_union, elem_of_singleton; tauto|repeat split]).
  Qed.
  Lemma storage_access callf a j k s : exists cold s', run db rev block_hash callf (PAccessStorage a j k) s = run db rev block_hash callf (k cold) s'
    /\ (cold = true <-> (a, j) ∉ accessed_keys s)
    /\ (forall x, x ∈ accessed_keys s' <-> x ∈ accessed_keys s \/ x = (a, j))
    /\ accessed_addresses s' = accessed_addresses s /\ objects s' = objects s /\ storages s' = storages s /\ codes s' = codes s
    /\ logs s' = logs s /\ refund s' = refund s /\ self_destructs s' = self_destructs s /\ touched s' = touched s.
  Proof.
    cbn [run]. unfold access_storage. exists (bool_decide ((a, j) ∉ accessed_keys s)). eexists. split; [reflexivity|]. split; [apply bool_decide_eq_true|].
    destruct (bool_decide _); cbn; (split; [intros x; rewrite elem_of_union, elem_of_singleton; tauto|repeat split]).
  Qed.

  Section Law.
    Variable keccak : bytes -> bytes.
    Variable pre_gas : N -> bytes -> N -> N.
    Variable pre_run : N -> bytes -> option bytes.
    Variable interp : message -> bytes -> prog.
    Notation hcall := (host_call keccak db rev pre_gas pre_run block_hash interp).
    Variable strict : bool.
    Hypothesis Hdb : forall a k, read_storage db a 0 k = 0.
    Hypothesis Hlaw : lawful strict interp.

    Lemma creation_sets m s : accessed_addresses (creation_attempted keccak db m s) = {[new_address keccak db m s]} ∪ accessed_addresses s
      /\ accessed_keys (creation_attempted keccak db m s) = accessed_keys s.
    Proof.
      unfold creation_attempted. generalize (new_address keccak db m s) as x. intros x. unfold access_account. cbn [snd].
      assert (E : forall s f a, accessed_addresses (update_current db s a f) = accessed_addresses s /\ accessed_keys (update_current db s a f) = accessed_keys s).
      { intros s0 f a. unfold update_current, get_or_create_object. destruct (get_object db s0 a) as [o s1] eqn:Eo. apply get_object_spec in Eo as (_ & _ & _ & _ & _ & _ & _ & _ & E1 & E2 & _).
        destruct o as [o|]; [destruct (o_current o)|]; cbn; auto. }
      unfold set_nonce. destruct (E s (fun c => with_nonce c ((nonce_of db s (m_sender m) + 1) mod 2 ^ 64)) (m_sender m)) as (E1 & E2).
      destruct (bool_decide _); cbn; now rewrite E1, E2.
    Qed.
    Theorem call_sets fuel stack m s r s' : (0 <= m_gas m)%Z -> m_depth m <= 1024 -> valid_caller db stack m s ->
      hcall fuel stack m s = Returns r s' ->
      (accessed_addresses s ⊆ accessed_addresses s' /\ accessed_keys s ⊆ accessed_keys s')
      /\ (r_status r <> SUCCESS -> accessed_keys s' = accessed_keys s
          /\ forall x, x ∈ accessed_addresses s' <-> x ∈ accessed_addresses s
               \/ (is_creation m = true /\ m_value m <= balance_of db s (m_sender m) /\ x = new_address keccak db m s)).
    Proof.
      intros Hg Hd Hv E. destruct fuel as [|fuel]; [discriminate|].
      pose proof (hcall_frame keccak db rev pre_gas pre_run block_hash interp strict Hdb Hlaw fuel stack m s Hg Hd Hv) as H. rewrite E in H. destruct H as (((Hev & _) & _) & U).
      split; [now apply (ev_sets db)|]. intros Hs. specialize (U Hs). destruct (is_creation m).
      - destruct (N.ltb_spec (balance_of db s (m_sender m)) (m_value m)) as [L|L].
        + split; [apply U|]. intros x. rewrite (un_addresses _ _ _ U). split; [auto|]. intros [H|(_ & H & _)]; [exact H|lia].
        + destruct (creation_sets m s) as (A & B). split; [rewrite (un_keys _ _ _ U); exact B|]. intros x. rewrite (un_addresses _ _ _ U), A, elem_of_union, elem_of_singleton. tauto.
      - split; [apply U|]. intros x. rewrite (un_addresses _ _ _ U). split; [auto|]. intros [H|(H & _)]; [exact H|discriminate].
    Qed.
  End Law.
End Calls.

(** A case: code [1] asks about 400, about 400 again, about the precompiled contract 9 and about slot 5 twice, calls 300,
    whose code [2] warms 500 and slot 6 of its own account and fails, and then asks about 500 and 400. *)
Definition bit (b : bool) : N := if b then 1 else 0.
Definition w_interp (m : message) (code : bytes) : prog :=
  if bytes_eqb code [1] then
    PAccessAccount 400 (fun c1 => PAccessAccount 400 (fun c2 => PAccessAccount 9 (fun c3 =>
    PAccessStorage (m_destination m) 5 (fun c4 => PAccessStorage (m_destination m) 5 (fun c5 =>
      if m_depth m <? 1024 then
        PCall (mkMsg KCall false (m_depth m + 1) (m_gas m / 2) 300 (m_destination m) [] 0 0) (fun r =>
        PAccessAccount 500 (fun c6 => PAccessAccount 400 (fun c7 =>
          PDone (mkRes SUCCESS 0 (map bit [c1; c2; c3; c4; c5; is_success (r_status r); c6; c7]) 0))))
      else PDone (mkRes SUCCESS 0 [] 0))))))
  else PAccessAccount 500 (fun _ => PAccessStorage (m_destination m) 6 (fun _ => PDone (mkRes INVALID_INSTRUCTION 0 [] 0))).
Lemma w_lawful : lawful true w_interp.
Proof.
  intros m code Hg Hd. unfold w_interp. destruct (bytes_eqb code [1]); cbn [contract]; [|cbn; lia].
  intros c1 c2 c3 c4 c5. destruct (N.ltb_spec (m_depth m) 1024); [|cbn; lia].
  assert (Hq : (0 <= m_gas m / 2)%Z) by (apply Z.div_pos; lia).
  cbn [contract m_kind m_sender m_depth m_gas]. split; [reflexivity|]. split; [reflexivity|]. split; [lia|]. split; [exact Hq|]. intros r Hr c6 c7. cbn [contract r_gas]. lia.
Qed.
Definition w_db : db_reader :=
  mkDb (fun a => if a =? 200 then Some (mkAccount 1 50 (e_hash [1]) 1) else if a =? 300 then Some (mkAccount 1 50 (e_hash [2]) 1) else None)
       (fun h => if bytes_eqb h (e_hash [1]) then [1] else if bytes_eqb h (e_hash [2]) then [2] else []) (fun _ _ _ => 0) (fun _ => 0).
Definition w_call := host_call e_hash w_db EVMC_BERLIN (fun _ _ _ => 100) (fun _ i => Some i) (fun _ => zeros 32) w_interp.
Lemma w_case : (forall a k, read_storage w_db a 0 k = 0) /\ lawful true w_interp /\ valid_caller w_db [] (e_msg 200 0) ibs_new
  /\ match w_call 1025 [] (e_msg 200 0) ibs_new with
     | Returns r s => r = mkRes SUCCESS 0 [1; 0; 0; 1; 0; 0; 1; 0] 0
         /\ map (fun a => bool_decide (a ∈ accessed_addresses s)) [9; 300; 400; 500] = [false; false; true; true]
         /\ map (fun p => bool_decide (p ∈ accessed_keys s)) [(200, 5); (300, 6)] = [true; false]
     | _ => False
     end.
Proof. split; [reflexivity|]. split; [exact w_lawful|]. split; [exact I|]. vm_compute. repeat split. Qed.
