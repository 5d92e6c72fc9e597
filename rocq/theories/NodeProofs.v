(** Blockchain over MemoryBuffer follows the reference machine. *)
From stdpp Require Import gmap.
From Verif Require Import Base BaseFacts RlpModel TxModel BlockModel TypesModel ChainModel TrieSpec TrieLemmas StateModel StateSpec StateProofs MemBufModel MemBufSpec MemBufProofs StateRootSpec StateRootProofs MemRootModel MemRootSpec MemRootLemmas EvmModel ProcessorModel RunSpec RunProofs RunCodes BlockchainModel BlockchainSpec BlockchainProofs BlockchainLemmas ChainBufferModel ChainBufferSpec ChainBufferProofs NodeModel NodeSpec.

Section Link.
  Variables keccak code_of : bytes -> bytes.

  Lemma mem_ok_less room room' m past w : room' <= room -> mem_ok keccak code_of room m past w -> mem_ok keccak code_of room' m past w.
  Proof.
    intros Hl [M1 (D1 & D2 & D3) M3 M4]. constructor; [exact M1| |exact M3|exact M4]. split; [exact D1|]. split.
    - intros a c E. destruct (D2 a c E) as (K1 & K2 & K3). split; [exact K1|]. split; [exact K2|lia].
    - intros a. specialize (D3 a). lia.
  Qed.

  (** [m] goes back to [m1] when the changes of [n] are unwound. *)
  Record link (n : N) (m1 : membuf) (past1 past : N -> bool) (m : membuf) : Prop := {
    lk_accounts : forall a, m_accounts m1 !! a = match default ∅ (m_acc_changes m !! n) !! a with Some x => x | None => m_accounts m !! a end;
    lk_storage : forall key, m_storage m1 !! key = match default ∅ (m_st_changes m !! n) !! key with Some x => nz x | None => m_storage m !! key end;
    lk_code : forall h, h <> kEmptyHash -> default [] (m_code m !! h) = default [] (m_code m1 !! h) \/ default [] (m_code m !! h) = code_of h;
    lk_prev : forall a q, past1 a = true -> q <= default 0 (m_prev m1 !! a) -> (forall c, m_accounts m1 !! a = Some c -> a_incarnation c <> 0 -> q <= a_incarnation c) ->
      q <= default 0 (m_prev m !! a) /\ (forall c, m_accounts m !! a = Some c -> a_incarnation c <> 0 -> q <= a_incarnation c);
    lk_lower : forall k, k < n -> m_acc_changes m !! k = m_acc_changes m1 !! k /\ m_st_changes m !! k = m_st_changes m1 !! k;
    lk_past : forall a, past1 a = true -> past a = true
  }.
  Fixpoint stack (room : N) (m : membuf) (past : N -> bool) (u : list (N * ((N -> bool) * world))) : Prop :=
    match u with
    | [] => True
    | (n, (past1, w1)) :: u => exists m1, mem_ok keccak code_of room m1 past1 w1 /\ coded w1 /\ link n m1 past1 past m /\ Forall (fun x => fst x < n) u /\ stack room m1 past1 u
    end.
  Lemma stack_less room room' u : room' <= room -> forall m past, stack room m past u -> stack room' m past u.
  Proof.
    intros Hl. induction u as [|[n [past1 w1]] u IH]; intros m past; [easy|]. cbn [stack]. intros (m1 & H1 & H2 & H3 & H4 & H5). exists m1. split; [eapply mem_ok_less; eassumption|]. auto.
  Qed.

  (** What the stack says of a buffer with the same content holds of any such buffer that has forgotten no incarnation. *)
  Lemma stack_same room u m1 past1 m3 (B : N) : (forall a, m_accounts m3 !! a = m_accounts m1 !! a) -> (forall key, m_storage m3 !! key = m_storage m1 !! key) ->
    (forall h, h <> kEmptyHash -> default [] (m_code m3 !! h) = default [] (m_code m1 !! h) \/ default [] (m_code m3 !! h) = code_of h) ->
    (forall a q, past1 a = true -> q <= default 0 (m_prev m1 !! a) -> (forall c, m_accounts m1 !! a = Some c -> a_incarnation c <> 0 -> q <= a_incarnation c) -> q <= default 0 (m_prev m3 !! a)) ->
    (forall k, k < B -> m_acc_changes m3 !! k = m_acc_changes m1 !! k /\ m_st_changes m3 !! k = m_st_changes m1 !! k) -> Forall (fun x => fst x < B) u ->
    stack room m1 past1 u -> stack room m3 past1 u.
  Proof.
    intros E1 E2 E3 E4 E5 HB. destruct u as [|[n [past2 w2]] u]; [easy|]. cbn [stack]. apply List.Forall_inv in HB. cbn [fst] in HB.
    intros (m2 & H1 & H2 & [L1 L2 L3 L4 L5 L6] & H4 & H5). exists m2. split; [exact H1|]. split; [exact H2|]. split; [|split; [exact H4|exact H5]]. destruct (E5 n HB) as (EA & ES). constructor.
    - intros a. rewrite L1, EA, E1. reflexivity.
    - intros key. rewrite L2, ES, E2. reflexivity.
    - intros h Hh. destruct (E3 h Hh) as [->| ->]; [apply L3, Hh|now right].
    - intros a q Hpa Hq Hqc. destruct (L4 a q Hpa Hq Hqc) as (Q1 & Q2). split; [apply (E4 a q (L6 a Hpa) Q1 Q2)|]. intros c. rewrite E1. apply Q2.
    - intros k Hk. destruct (E5 k ltac:(lia)) as (-> & ->). now apply L5.
    - exact L6.
  Qed.

  (** Going back. *)
  Lemma link_undo room n m past w m1 past1 w1 u aord sord : mem_ok keccak code_of room m past w -> mem_ok keccak code_of room m1 past1 w1 -> link n m1 past1 past m -> Forall (fun x => fst x < n) u -> stack room m1 past1 u ->
    unwind_order_ok m n aord sord -> let m3 := unwind_state_changes m n aord sord in mem_ok keccak code_of room m3 past1 w1 /\ stack room m3 past1 u.
  Proof.
    intros Hm Hm1 [L1 L2 L3 L4 L5 L6] Hu Hst Ho. cbv zeta. destruct (unwind_effect (fun _ => kEmptyHash) (fun _ => []) eq_refl eq_refl m n aord sord Ho) as (V1 & V2 & V3 & V4 & V5 & V6). set (m3 := unwind_state_changes m n aord sord) in *.
    assert (U1 : forall a, m_accounts m3 !! a = m_accounts m1 !! a) by (intros a; now rewrite V1, L1).
    assert (U2 : forall key, m_storage m3 !! key = m_storage m1 !! key) by (intros a; now rewrite V2, L2).
    split.
    - destruct Hm1 as [Hs (D1 & D2 & D3) Hinc Hnz]. destruct Hm as [_ (_ & _ & D3') _ _].
      assert (Code : forall a c, m_accounts m1 !! a = Some c -> a_code_hash c <> kEmptyHash -> default [] (m_code m3 !! a_code_hash c) = default [] (m_code m1 !! a_code_hash c)).
      { intros a c Ec Hne. rewrite V3. destruct (D2 a c Ec) as (_ & K & _). specialize (K Hne). cbn in K. destruct (L3 _ Hne) as [E|E]; rewrite E; [reflexivity|symmetry; exact K]. }
      constructor.
      + destruct Hs as (S1 & S2 & S). split; [|split; [|exact S]].
        * intros a. rewrite S1. cbn. now rewrite U1.
        * intros a k. rewrite S2. cbn. rewrite U1. destruct (m_accounts m1 !! a); [now rewrite U2|reflexivity].
      + split; [|split].
        * intros a k. cbn. rewrite U2. apply D1.
        * intros a c. cbn. rewrite U1. intros Ec. destruct (D2 a c Ec) as (K1 & K2 & K3). split; [exact K1|]. split; [|lia]. intros Hne. rewrite (Code a c Ec Hne). exact (K2 Hne).
        * intros a. cbn. rewrite V4. apply D3'.
      + intros a i k v. rewrite U1, U2, V4. intros Ev. destruct (Hinc a i k v Ev) as [H|(Hc & Hpa & Hp)]; [now left|]. right. split; [exact Hc|]. split; [exact Hpa|].
        apply (L4 a i Hpa Hp). intros c Ec Hne. exfalso. rewrite (contract_db code_of m1 w1 a Hs) in Hc. unfold db_contract in Hc. cbn in Hc. rewrite Ec in Hc. now apply negb_false_iff, N.eqb_eq in Hc.
      + intros key v. rewrite U2. apply Hnz.
    - apply (stack_same room u m1 past1 m3 n U1 U2); [| | |exact Hu|exact Hst].
      + intros h Hh. rewrite V3. now apply L3.
      + intros a q Hpa Hq Hqc. rewrite V4. now apply (L4 a q).
      + intros k Hk. rewrite V5, V6. now apply L5.
  Qed.
End Link.

Section Node.
  Variables keccak code_of : bytes -> bytes.
  Variable pre_gas : N -> bytes -> N -> N.
  Variable pre_run : N -> bytes -> option bytes.
  Variable block_hash : blk content -> N -> bytes.
  Variable interp : message -> bytes -> prog.
  Variable fuel : nat.
  Variable receipts_root : list receipt -> bytes.
  Variable config : chain_config.
  Variable hash : blk content -> bytes.
  Variable pre : gmap (N * bytes) (blk content) -> blk content -> bool.
  Variable o : orders.
  Hypothesis Ho : orders_ok o.
  Hypothesis Hk32 : hash_32 keccak.
  Variable genesis : blk content.
  Variable gs : (N -> bool) * world.
  Variable root : (N -> bool) * world -> bytes.
  Variable l : list (blk content).
  Variable calls : N.
  Notation rexec := (reference_exec keccak pre_gas pre_run block_hash interp fuel receipts_root config).
  Notation refer := (reference_of keccak pre_gas pre_run block_hash interp fuel receipts_root config).
  Hypothesis Hexe : executable keccak code_of pre_gas pre_run block_hash interp fuel receipts_root config hash genesis gs l calls.
  Hypothesis Hroot : rooted keccak pre_gas pre_run block_hash interp fuel receipts_root config hash genesis gs root l.
  Hypothesis Hgen : In genesis l.
  Hypothesis genesis_number : b_number genesis = 0.
  Notation U := (fun b => In b l).
  Notation vch := (vch hash rexec genesis gs U).
  Notation mrun := (mem_run keccak pre_gas pre_run block_hash interp fuel receipts_root config o).

  Definition Rel (k : nat) (u : list (N * ((N -> bool) * world))) (s : (N -> bool) * world) (x : store) : Prop :=
    mem_ok keccak code_of (N.of_nat k * calls) (fst x) (fst s) (snd s) /\ coded (snd s) /\ stack keccak code_of (N.of_nat k * calls) (fst x) (fst s) u.

  Lemma r_weak k u s t : Rel (S k) u s t -> Rel k u s t.
  Proof. intros (H1 & H2 & H3). split; [eapply mem_ok_less; [|exact H1]; nia|]. split; [exact H2|]. eapply stack_less; [|exact H3]. nia. Qed.

  Lemma vch_below t s d u : b_difficulty genesis < 2 ^ 256 -> vch t s d u -> Forall (fun x => fst x < N.of_nat (length t)) u.
  Proof.
    intros _. induction 1 as [|p t s d u b s' Hub H IH Hn Hp He]; [constructor|].
    assert (E : b_number p = N.of_nat (length t)).
    { clear - H genesis_number. remember (p :: t) as pt eqn:Ept. revert p t Ept. induction H as [|p l0 s d u b s' Hub H IH Hn Hp He]; intros p' t [= <- <-]; [exact genesis_number|]. rewrite Hn, (IH _ _ eq_refl). cbn [length]. lia. }
    constructor; [cbn [fst length]; lia|]. eapply List.Forall_impl; [|exact IH]. cbn [length]. lia.
  Qed.
  Lemma vch_top p t s d u : vch (p :: t) s d u -> b_number p = N.of_nat (length t).
  Proof.
    intros H. remember (p :: t) as pt eqn:Ept. revert p t Ept. induction H as [|p l0 s d u b s' Hub H IH Hn Hp He]; intros p' t [= <- <-]; [exact genesis_number|]. rewrite Hn, (IH _ _ eq_refl). cbn [length]. lia.
  Qed.

  Lemma r_exec : b_difficulty genesis < 2 ^ 256 -> forall k p t s d u b x, vch (p :: t) s d u -> In b l -> b_number b = b_number p + 1 -> b_parent b = hash p -> Rel (S k) u s x ->
    match rexec s b with
    | Some s' => exists x', mrun x b = Some (true, x') /\ Rel k ((b_number b, s) :: u) s' x'
    | None => exists x', mrun x b = Some (false, x') /\ Rel k u s x'
    end.
  Proof.
    intros Hgd k p t [past w] d u b [m i] Hv Hb Hn Hp HR. pose proof HR as (Hm & Hc & Hst). cbn [fst snd] in *.
    pose proof (vch_U _ _ _ _ _ Hgen _ _ _ _ Hv) as HU. pose proof (vch_valid _ _ _ _ _ _ _ _ _ Hv) as Hval.
    destruct (Hexe p t past w d b Hval HU Hb Hn Hp) as (rs & v & ops & w' & Er & Hl & Hcodes & Hkept).
    assert (Hlen : N.of_nat (length ops) <= N.of_nat (S k) * calls) by nia.
    destruct (Ho i) as (Vs & Vw & _).
    unfold reference_exec, mem_run. cbn [fst snd]. rewrite Er. unfold reference_of in Er.
    assert (Ev : v = kOk \/ match v with kOk => False | _ => True end) by (destruct v; auto). destruct Ev as [->|Ev].
    -       destruct (always_writable keccak code_of _ _ _ _ _ _ _ _ _ _ _ past (mem_reader m) w rs kOk ops w' (mo_starts _ _ _ _ _ _ Hm) Hc Er (Hkept eq_refl)) as (Hbo & Hc').
      destruct (run_step keccak code_of _ _ _ _ _ _ _ _ _ _ _ _ m past (or_set o i) w rs ops w' Hm Hlen Hcodes Vs Er Hbo) as (s & Es & Hs). rewrite Es.
      specialize (Vw s). destruct (or_write o i s) as [sord oord] eqn:Eo. cbn [fst snd] in Vw. destruct (Hs (b_number b) sord oord Vw) as (Hm' & T1 & T2 & T3 & T4).
      eexists. split; [reflexivity|].
      destruct (write_effect s m (b_number b) sord oord Vw) as (W1 & W2 & W3 & W4 & W5 & W6 & W7). set (m' := write_to_db s m (b_number b) sord oord) in *.
      split; [|split; [exact Hc'|]]; cbn [fst snd].
      + eapply mem_ok_less; [|exact Hm']. nia.
      + cbn [stack]. exists m. split; [eapply mem_ok_less; [|exact Hm]; nia|]. split; [exact Hc|]. split; [|split].
        * constructor.
          -- intros a. rewrite W5, W1. destruct (objects s !! a) as [ob|] eqn:Eob; cbn; [symmetry; now apply T1|reflexivity].
          -- intros key. rewrite W6, W4. destruct (slot s key) as [cv|] eqn:Ecv; cbn; [symmetry; now apply T2|reflexivity].
          -- intros h Hh. exact (T3 h Hh).
          -- exact T4.
          -- intros j Hj. apply W7. lia.
          -- intros a Ha. unfold next_past. now rewrite Ha.
        * eapply List.Forall_impl; [|exact (vch_below _ _ _ _ Hgd Hv)]. cbn [length]. intros e He. rewrite Hn, (vch_top _ _ _ _ _ Hv). lia.
        * eapply stack_less; [|exact Hst]. nia.
    - destruct (run_reference keccak code_of _ _ _ _ _ _ _ _ _ _ _ _ (mem_reader m) (or_set o i) w rs v ops w' (mo_starts _ _ _ _ _ _ Hm) (mo_db _ _ _ _ _ _ Hm) Hcodes Hlen Vs Er) as (s & ops2 & vs & vs' & sn & sn' & w2 & Es & _). rewrite Es.
      apply r_weak in HR. destruct v; try destruct Ev; eexists; (split; [reflexivity|exact HR]).
  Qed.
  Lemma r_undo k n s0 u s x : Rel k ((n, s0) :: u) s x -> Rel k u s0 (mem_undo o x n).
  Proof.
    destruct s0 as [past1 w1], s as [past w], x as [m i]. intros (Hm & Hc & Hst). cbn [fst snd stack] in *. destruct Hst as (m1 & Hm1 & Hc1 & Hl & Hu & Hst).
    unfold mem_undo. destruct (Ho i) as (_ & _ & Vu & _). specialize (Vu m n). destruct (or_unwind o i m n) as [aord sord]. cbn [fst snd] in *.
    destruct (link_undo keccak code_of _ n m past w m1 past1 w1 u aord sord Hm Hm1 Hl Hu Hst Vu) as (H1 & H2). split; [exact H1|]. split; [exact Hc1|exact H2].
  Qed.
  Lemma root_unique w r r' : is_world_root keccak w r -> is_world_root keccak w r' -> r = r'.
  Proof. intros (a & Ha & ->) (b & Hb & ->). now rewrite (trie_unique _ _ _ Ha Hb). Qed.
  Lemma r_root k t s d u x : vch t s d u -> Rel k u s x -> mem_state_root keccak o x = Some (root s).
  Proof.
    destruct s as [past w], x as [m i]. intros Hv (Hm & _). cbn [fst snd] in *. unfold mem_state_root. destruct (Ho i) as (_ & _ & _ & Vr). specialize (Vr m). destruct (or_root o i m) as [accs storage]. cbn [fst snd] in *. destruct Vr as (Va & Vs).
    destruct (Hroot t past w d (vch_valid _ _ _ _ _ _ _ _ _ Hv) (vch_U _ _ _ _ _ Hgen _ _ _ _ Hv)) as (R1 & R2 & R3).
    destruct (world_root keccak Hk32 code_of _ m past w accs storage Hm R1 R2 Va Vs) as (r & -> & Hr). f_equal. now apply (root_unique w).
  Qed.
End Node.
