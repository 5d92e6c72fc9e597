(** Executing a block over a store gives what the reference machine gives. *)
From stdpp Require Import gmap.
From Verif Require Import Base RlpModel TxModel BlockModel TypesModel ChainModel StateModel StateSpec StateProofs MemBufModel MemBufSpec MemBufProofs EvmModel ProcessorModel ScriptSpec ScriptEvm ScriptProofs ScriptSim RunSpec.

Lemma contract_start code_of db w a : starts code_of db w -> contract_in w a = db_contract db a.
Proof. intros (S1 & _). unfold contract_in, db_contract. rewrite S1. now destruct (read_account db a). Qed.

Section Run.
  Variables keccak code_of : bytes -> bytes.
  Variable rev : N.
  Variable pre_gas : N -> bytes -> N -> N.
  Variable pre_run : N -> bytes -> option bytes.
  Variable block_hash : N -> bytes.
  Variable interp : message -> bytes -> prog.
  Variable fuel : nat.
  Variable root : list receipt -> bytes.
  Variable config : chain_config.
  Variable header : block_header.
  Variable ts : list transaction.
  Variable ommers : list block_header.
  Notation reference := (reference_block keccak rev pre_gas pre_run block_hash interp fuel root config header ts ommers).
  Notation run db iterate := (run_block keccak db rev pre_gas pre_run block_hash interp fuel iterate root config header ts ommers).

  (** With the history of the calls, as far as MemBufProofs needs it. *)
  Lemma run_reference room db iterate w rs v ops w' : starts code_of db w -> db_ok keccak code_of db room -> codes_ok keccak code_of ops -> N.of_nat (length ops) <= room -> visits iterate ->
    reference w = Some (rs, v, ops, w') ->
    exists s ops2 vs vs' sn sn' w2, run db iterate = Some (rs, v, match v with kOk => Some s | _ => None end)
      /\ length ops2 = length ops /\ flat_map op_code ops2 = flat_map op_code ops
      /\ arun keccak (contract_in w) (w, []) ops2 = Some (vs, (w2, sn)) /\ weq w' w2 /\ crun keccak db (ibs_new, []) ops2 = (vs', (s, sn')).
  Proof.
    intros Hs Hdb (Hke & Hce & Hcd) Hlen Hit. unfold reference_block. destruct (arun_script _ _ _ _ _) as [[[[[[rs0 v0]|] d] ops0] [wr snr]]|] eqn:E; try discriminate. intros [= -> -> -> ->].
    destruct (script_ext keccak elements iterate (contract_in w) (db_contract db) _ ltac:(intros X; reflexivity) Hit (fun a => contract_start code_of db w a Hs) (w, []) (w, []) _ _ _ ltac:(split; [apply weq_refl|constructor]) E)
      as (ops2 & [w2 sn2] & E2 & [Ew _] & EL & EF). cbn [fst] in Ew.
    destruct (script_sim keccak code_of iterate db room Hdb Hke Hce _ 0 (ibs_new, []) (w, []) _ ops2 _ (rel_fresh _ _ _ _ 0 _ _ (new_inv _ _ _ _ Hdb) (new_R _ _ _ Hs)) ltac:(lia) ltac:(rewrite EF; exact Hcd) E2)
      as ([s sn'] & n' & Ec & Ec2 & _ & _).
    destruct (script_arun keccak _ _ _ _ _ _ _ E2) as (vs & Ea). rewrite <- (arun_ext keccak _ _ ops2 (fun a => contract_start code_of db w a Hs)) in Ea.
    pose proof (t_block_ok keccak iterate db rev pre_gas pre_run block_hash interp fuel header root config ts ommers) as Hb. rewrite Ec in Hb.
    destruct (run db iterate) as [[[rs1 v1] kept]|] eqn:Er; [|discriminate]. destruct Hb as (s1 & d1 & x1 & Eq & ->). injection Eq as <- <- <- <- <-.
    destruct (crun keccak db (ibs_new, []) ops2) as [vs' x'] eqn:Ex. cbn [snd] in Ec2. subst x'. exists s, ops2, vs, vs', sn2, sn', w2. split; [reflexivity|]. split; [exact EL|]. split; [exact EF|]. split; [exact Ea|]. split; [exact Ew|exact Ex].
  Qed.

  Lemma determined db1 db2 it1 it2 w rs v ops w' : holds keccak code_of db1 w ops -> holds keccak code_of db2 w ops -> visits it1 -> visits it2 -> reference w = Some (rs, v, ops, w') ->
    exists kept1 kept2, run db1 it1 = Some (rs, v, kept1) /\ run db2 it2 = Some (rs, v, kept2).
  Proof.
    intros (H1 & H2 & H3) (G1 & G2 & G3) I1 I2 E. destruct (run_reference _ db1 it1 w rs v ops w' H1 H2 H3 (N.le_refl _) I1 E) as (s1 & _ & _ & _ & _ & _ & _ & E1 & _).
    destruct (run_reference _ db2 it2 w rs v ops w' G1 G2 G3 (N.le_refl _) I2 E) as (s2 & _ & _ & _ & _ & _ & _ & E2 & _). eauto.
  Qed.

  Lemma starts_weq db w1 w2 : weq w1 w2 -> starts code_of db w1 -> starts code_of db w2.
  Proof.
    intros [] (S1 & S2 & S3 & S4 & S5 & S6 & S7 & S8 & S9 & S10 & S11). repeat split; intros; congruence || (rewrite <- ?q_acct, <- ?q_current, <- ?q_original, <- ?q_gone, <- ?q_born; auto; try (rewrite q_current; auto)).
  Qed.
  Lemma mem_ok_weq room m past1 past2 w1 w2 : weq w1 w2 -> (forall a, past1 a = past2 a) -> mem_ok keccak code_of room m past1 w1 -> mem_ok keccak code_of room m past2 w2.
  Proof.
    intros E Ep [M1 M2 M3 M4]. constructor; [now apply starts_weq with w1|exact M2| |exact M4].
    intros a i k v Hv. destruct (M3 a i k v Hv) as [H|(H1 & H2 & H3)]; [now left|right]. split; [|split; [congruence|exact H3]]. unfold contract_in in *. now rewrite <- (q_acct _ _ E).
  Qed.
  Lemma next_weq w1 w2 : weq w1 w2 -> weq (next_world w1) (next_world w2).
  Proof. intros []. constructor; cbn; auto. Qed.
  Lemma block_ok_weq past w0 w1 w2 : weq w1 w2 -> block_ok past w0 w1 -> block_ok past w0 w2.
  Proof.
    intros E ((B1 & B2) & B3 & B4). repeat split.
    - intros a k. rewrite <- (q_original _ _ E), <- (q_current _ _ E). apply B1.
    - intros a c0 c. rewrite <- (q_acct _ _ E), <- (q_born _ _ E). apply B2.
    - intros a. rewrite <- (weq_exists w1 w2 a E). unfold contract_in. rewrite <- (q_acct _ _ E). apply B3.
    - intros a. rewrite <- (weq_exists w1 w2 a E). apply B4.
  Qed.
  Lemma next_past_weq past w0 w1 w2 a : weq w1 w2 -> next_past past w0 w1 a = next_past past w0 w2 a.
  Proof. intros E. unfold next_past. now rewrite (weq_exists w1 w2 a E). Qed.

  (** A valid block, executed over a buffer and written back, with what MemBufProofs says about the buffer. *)
  Lemma run_step room m past iterate w rs ops w' : mem_ok keccak code_of room m past w -> N.of_nat (length ops) <= room -> codes_ok keccak code_of ops -> visits iterate ->
    reference w = Some (rs, kOk, ops, w') -> block_ok past w w' ->
    exists s, run (mem_reader m) iterate = Some (rs, kOk, Some s) /\ forall n sord oord, order_ok s sord oord ->
      let m' := write_to_db s m n sord oord in
      mem_ok keccak code_of (room - N.of_nat (length ops)) m' (next_past past w w') (next_world w')
      /\ (forall a o, objects s !! a = Some o -> o_initial o = m_accounts m !! a)
      /\ (forall key cv, slot s key = Some cv -> nz (cv_initial cv) = m_storage m !! key)
      /\ (forall h, h <> kEmptyHash -> let code := default [] (m_code m' !! h) in code = default [] (m_code m !! h) \/ code = code_of h)
      /\ (forall a q, past a = true -> q <= default 0 (m_prev m !! a) -> (forall c, m_accounts m !! a = Some c -> a_incarnation c <> 0 -> q <= a_incarnation c) ->
          q <= default 0 (m_prev m' !! a) /\ (forall c, m_accounts m' !! a = Some c -> a_incarnation c <> 0 -> q <= a_incarnation c)).
  Proof.
    intros Hm Hlen Hc Hit E Hb. destruct (run_reference room (mem_reader m) iterate w rs kOk ops w' (mo_starts _ _ _ _ _ _ Hm) (mo_db _ _ _ _ _ _ Hm) Hc Hlen Hit E)
      as (s & ops2 & vs & vs' & sn & sn' & w2 & Er & EL & EF & Ea & Ew & Ec).
    exists s. split; [exact Er|]. intros n sord oord Ho. cbv zeta. destruct Hc as (Hke & Hce & Hcd).
    destruct (block_step keccak code_of Hke Hce room m past w ops2 vs w2 sn vs' s sn' n sord oord Hm ltac:(lia) ltac:(rewrite EF; exact Hcd) Ea (block_ok_weq _ _ _ _ Ew Hb) Ec Ho) as (_ & Hm' & T).
    split; [|exact T]. rewrite EL in Hm'. eapply mem_ok_weq; [apply next_weq, weq_sym, Ew| |exact Hm']. intros a. symmetry. now apply next_past_weq.
  Qed.
  Lemma written_back room m past iterate w rs ops w' n : mem_ok keccak code_of room m past w -> N.of_nat (length ops) <= room -> codes_ok keccak code_of ops -> visits iterate ->
    reference w = Some (rs, kOk, ops, w') -> block_ok past w w' ->
    exists s, run (mem_reader m) iterate = Some (rs, kOk, Some s) /\ forall sord oord, order_ok s sord oord ->
      mem_ok keccak code_of (room - N.of_nat (length ops)) (write_to_db s m n sord oord) (next_past past w w') (next_world w').
  Proof.
    intros Hm Hl Hc Hit E Hb. destruct (run_step room m past iterate w rs ops w' Hm Hl Hc Hit E Hb) as (s & Er & H). exists s. split; [exact Er|]. intros sord oord Ho. exact (proj1 (H n sord oord Ho)).
  Qed.
End Run.

(** The program is the code: on the implementation it gives the receipts and the verdict of run_block and leaves the state that is written back. *)
Lemma program_is_code keccak iterate db rev pre_gas pre_run block_hash interp fuel header root config ts ommers :
  match run_block keccak db rev pre_gas pre_run block_hash interp fuel iterate root config header ts ommers with
  | Some (rs, v, kept) => exists s d x, crun_script keccak iterate db (t_block keccak rev pre_gas pre_run block_hash interp fuel header root config ts ommers) (ibs_new, []) = ((Some (rs, v), d), (s, x))
      /\ kept = match v with kOk => Some s | _ => None end
  | None => fst (fst (crun_script keccak iterate db (t_block keccak rev pre_gas pre_run block_hash interp fuel header root config ts ommers) (ibs_new, []))) = None
  end.
Proof. exact (t_block_ok keccak iterate db rev pre_gas pre_run block_hash interp fuel header root config ts ommers). Qed.
