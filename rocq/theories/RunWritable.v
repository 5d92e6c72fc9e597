(** What every block leaves behind on the reference machine. *)
From stdpp Require Import gmap.
From Coq Require Import ZArith.
From Verif Require Import Base RlpModel TxModel BlockModel TypesModel ChainModel StateModel StateSpec MemBufModel MemBufSpec EvmModel ProcessorModel ScriptSpec ScriptEvm RunSpec.

Section Triples.
  Variable keccak : bytes -> bytes.
  Variable iterate : gset N -> list N.
  Variable cs : N -> bool.
  Notation arun_s := (arun_script keccak iterate cs).

  Lemma ar_bind {A B} (t : script A) (f : A -> script B) : forall y b ops y', arun_s (bind_script t f) y = Some (b, ops, y') ->
    exists a ops1 y1 ops2, arun_s t y = Some (a, ops1, y1) /\ arun_s (f a) y1 = Some (b, ops2, y') /\ ops = ops1 ++ ops2.
  Proof.
    induction t as [a|o k IH|k IH|k IH]; intros y b ops y'; cbn [bind_script arun_script].
    - intros E. exists a, [], y, ops. auto.
    - destruct (astep keccak cs y o) as [[v y1]|]; [|discriminate]. destruct (arun_s (bind_script (k v) f) y1) as [[[b1 ops1] y2]|] eqn:E; [|discriminate]. intros [= <- <- <-].
      destruct (IH v _ _ _ _ E) as (a & o1 & ya & o2 & E1 & E2 & ->). exists a, (o :: o1), ya, o2. now rewrite E1.
    - destruct (astep keccak cs y _) as [[v y1]|]; [|discriminate]. destruct (arun_s (bind_script k f) y1) as [[[b1 ops1] y2]|] eqn:E; [|discriminate]. intros [= <- <- <-].
      destruct (IH _ _ _ _ E) as (a & o1 & ya & o2 & E1 & E2 & ->). eexists a, (_ :: o1), ya, o2. now rewrite E1.
    - destruct (astep keccak cs y _) as [[v y1]|]; [|discriminate]. destruct (arun_s (bind_script k f) y1) as [[[b1 ops1] y2]|] eqn:E; [|discriminate]. intros [= <- <- <-].
      destruct (IH _ _ _ _ E) as (a & o1 & ya & o2 & E1 & E2 & ->). eexists a, (_ :: o1), ya, o2. now rewrite E1.
  Qed.

  (** [p], started where [P] holds, ends where [Q] of its result holds. *)
  Definition triple {A} (P : world -> Prop) (p : prg A) (Q : A -> world -> Prop) : Prop :=
    forall d w sn a d' ops w' sn', P w -> arun_s (p d) (w, sn) = Some ((a, d'), ops, (w', sn')) -> Q a w'.
  Lemma t_bind {A B} (P : world -> Prop) (p : prg A) (M : A -> world -> Prop) (q : A -> prg B) (Q : B -> world -> Prop) : triple P p M -> (forall a, triple (M a) (q a) Q) -> triple P (bind p q) Q.
  Proof.
    intros Hp Hq d w sn b d' ops w' sn' HP E. unfold bind in E. apply ar_bind in E as ([a d1] & o1 & [w1 sn1] & o2 & E1 & E2 & _).
    eapply Hq; [|exact E2]. eapply Hp; [exact HP|exact E1].
  Qed.
  Lemma t_ret {A} (P : world -> Prop) (a : A) (Q : A -> world -> Prop) : (forall w, P w -> Q a w) -> triple P (ret a) Q.
  Proof. intros H d w sn a' d' ops w' sn' HP. cbn. intros [= <- <- <- <- <-]. auto. Qed.
  Lemma t_weak {A} (P P' : world -> Prop) (p : prg A) (Q Q' : A -> world -> Prop) : (forall w, P w -> P' w) -> (forall a w, Q' a w -> Q a w) -> triple P' p Q' -> triple P p Q.
  Proof. intros HP HQ H d w sn a d' ops w' sn' H0 E. apply HQ. eapply H; [|exact E]. auto. Qed.
  Lemma t_any {A} (p : prg A) P : triple P p (fun _ _ => True).
  Proof. repeat intro. exact I. Qed.

  (** After the end of a transaction the storage is committed. *)
  Definition committed (w : world) : Prop := forall a k, w_original w a k = w_current w a k.
  Definition keeps_storage (o : op) : bool :=
    match o with
    | OSetStorage _ _ _ | OSnapshot | ORevert _ | OCreate _ | OFinalize | ODestruct _ | ODestructSuicides _ | ODestructTouchedDead _ => false
    | _ => true
    end.
  Lemma step_keeps o w sn v w' sn' : keeps_storage o = true -> committed w -> astep keccak cs (w, sn) o = Some (v, (w', sn')) -> committed w'.
  Proof. intros K H E. destruct o; try discriminate; cbn in E; injection E as <- <- <-; exact H. Qed.
  Lemma t_num o : keeps_storage o = true -> triple committed (num o) (fun _ => committed).
  Proof. intros K d w sn a d' ops w' sn' H. unfold num. cbn [arun_script]. destruct (astep keccak cs (w, sn) o) as [[v [w1 sn1]]|] eqn:E; [|discriminate]. intros [= <- <- <- <- <-]. now apply step_keeps with o w sn v sn1. Qed.
  Lemma t_cmd o : keeps_storage o = true -> triple committed (cmd o) (fun _ => committed).
  Proof. intros K d w sn a d' ops w' sn' H. unfold cmd. cbn [arun_script]. destruct (astep keccak cs (w, sn) o) as [[v [w1 sn1]]|] eqn:E; [|discriminate]. intros [= <- <- <- <- <-]. now apply step_keeps with o w sn v sn1. Qed.
  Lemma t_lgs : triple committed (lgs OLogs) (fun _ => committed).
  Proof. intros d w sn a d' ops w' sn' H. cbn. now intros [= <- <- <- <- <-]. Qed.
  Lemma t_finalize P : triple P (fin OFinalize) (fun _ => committed).
  Proof. intros d w sn a d' ops w' sn' H. cbn. intros [= <- <- <- <- <-]. intros x k. reflexivity. Qed.
  Lemma t_each {A} P (f : A -> prg unit) l : (forall a, triple P (f a) (fun _ => P)) -> triple P (each f l) (fun _ => P).
  Proof. intros H. induction l as [|a t IH]; cbn [each]; [apply t_ret; auto|]. eapply t_bind; [apply H|]. intros ?u. exact IH. Qed.

  Section Block.
    Variable rev : N.
    Variable pre_gas : N -> bytes -> N -> N.
    Variable pre_run : N -> bytes -> option bytes.
    Variable block_hash : N -> bytes.
    Variable interp : message -> bytes -> prog.
    Variable fuel : nat.
    Variable header : block_header.
    Lemma c_transaction cumulative t : triple (fun _ => True) (t_transaction keccak rev pre_gas pre_run block_hash interp fuel header cumulative t) (fun r w => match r with Some _ => committed w | None => True end).
    Proof.
      unfold t_transaction. eapply t_bind; [apply t_any|]. intros ?u. cbv beta. cbv zeta. eapply t_bind; [apply t_any|]. intros r. cbv beta. destruct r as [r| |]; [|apply t_ret; auto|apply t_ret; auto].
      eapply t_bind; [apply t_any|]. intros gas_left. cbv beta. eapply t_bind; [apply t_any|]. intros ?u. cbv beta. eapply t_bind; [apply t_any|]. intros ?u. cbv beta. eapply t_bind; [apply t_any|]. intros ?u. cbv beta.
      eapply t_bind; [apply t_finalize|]. intros ?u. cbv beta. cbv beta zeta. eapply t_bind; [apply t_lgs|]. intros l. cbv beta. apply t_ret. auto.
    Qed.
    Lemma c_validate cumulative t : triple committed (t_validate header cumulative t) (fun _ => committed).
    Proof.
      unfold t_validate. destruct (tx_from t); [|apply t_ret; auto]. eapply t_bind; [now apply t_num|]. intros n. cbv beta. destruct (negb _); [apply t_ret; auto|].
      eapply t_bind; [now apply t_num|]. intros bal. cbv beta. apply t_ret. auto.
    Qed.
    Lemma c_transactions ts : forall cumulative, triple committed (t_transactions keccak rev pre_gas pre_run block_hash interp fuel header cumulative ts) (fun r w => match r with Some _ => committed w | None => True end).
    Proof.
      induction ts as [|t ts IH]; intros cumulative; cbn [t_transactions]; [apply t_ret; auto|]. eapply t_bind; [apply c_validate|]. intros err. cbv beta. destruct err; try (apply t_ret; auto).
      eapply t_bind; [eapply (t_weak _ (fun _ => True)); [auto|intros a w H; exact H|apply c_transaction]|]. intros [[r c]|]; cbv beta; [|apply t_ret; auto].
      eapply t_bind; [apply IH|]. intros [[rs err]|]; apply t_ret; auto.
    Qed.
    Lemma c_ommers ommers : forall miner, triple committed (t_ommers rev header miner ommers) (fun _ => committed).
    Proof. induction ommers as [|o t IH]; intros miner; cbn [t_ommers]; [apply t_ret; auto|]. eapply t_bind; [now apply t_cmd|]. intros ?u. cbv beta. apply IH. Qed.
    Lemma c_block root config ts ommers w rs v ops w' : committed w ->
      reference_block keccak rev pre_gas pre_run block_hash interp fuel root config header ts ommers w = Some (rs, v, ops, w') -> iterate = elements -> cs = contract_in w -> committed w'.
    Proof.
      intros Hw E Ei Ec. unfold reference_block in E. rewrite <- Ei, <- Ec in E. destruct (arun_s _ _) as [[[[r d] ops1] [w1 sn1]]|] eqn:Er; [|discriminate]. destruct r as [[rs1 v1]|]; [|discriminate]. injection E as -> -> -> ->.
      unfold t_block in Er.
      assert (G : triple committed (do _ <- match cfg_dao_block config with Some d => when (hd_number header =? d) t_transfer_balances | None => ret tt end;
         do r <- t_transactions keccak rev pre_gas pre_run block_hash interp fuel header 0 ts;
         match r with
         | None => ret None
         | Some (rs, kOk) =>
           do _ <- t_rewards rev header ommers;
           let gas_used := match rs with [] => 0 | _ => rc_cumulative_gas_used (List.last rs (mkReceipt kLegacy false 0 [] [])) end in
           ret (Some (rs, if negb (gas_used =? hd_gas_used header) then kWrongBlockGas
                          else if (EVMC_BYZANTIUM <=? rev) && negb (bytes_eqb (root rs) (hd_receipts_root header)) then kWrongReceiptsRoot
                          else if negb (bytes_eqb (fold_left (fun b r => join_bloom b (rc_bloom r)) rs (repeat 0 256)) (hd_logs_bloom header)) then kWrongLogsBloom
                          else kOk))
         | Some (rs, err) => ret (Some (rs, err))
         end) (fun r w => match r with Some _ => committed w | None => True end)).
      2: { exact (G O w [] _ _ _ _ _ Hw Er). }
      clear.
      eapply (t_bind _ _ (fun _ => committed)).
      - destruct (cfg_dao_block config); [|apply t_ret; auto]. unfold when. destruct (_ =? _); [|apply t_ret; auto]. unfold t_transfer_balances. apply t_each. intros a.
        eapply t_bind; [now apply t_num|]. intros b. cbv beta. eapply t_bind; [now apply t_cmd|]. intros ?u. cbv beta. now apply t_cmd.
      - intros ?u. cbv beta. eapply t_bind; [apply c_transactions|]. intros [[rs err]|]; cbv beta; [|apply t_ret; auto]. destruct err; try (apply t_ret; auto).
        eapply (t_bind _ _ (fun _ => committed)); [|intros ?u; apply t_ret; auto]. unfold t_rewards. eapply t_bind; [apply c_ommers|]. intros miner. now apply t_cmd.
    Qed.
  End Block.
End Triples.
