(** Proofs about the execution of blocks in batches: the command and the stage. *)
From stdpp Require Import gmap.
From Verif Require Import Base BaseFacts RlpModel TypesModel TypesSpec BlockModel UtilModel ChainModel DbTable DbModel DbSpec DbProofs BufferModel BufferSpec BufferProofs BufferProofs2 BufferProofs3 BufferProofs4 BufferProofs6 UnwindModel UnwindProofs UnwindProofs2 ExecModel ExecSpec ExecProofs.

Definition same_blocks (d d' : database) : Prop :=
  d' kCanonicalHashes = d kCanonicalHashes /\ d' kHeaders = d kHeaders /\ d' kBlockBodies = d kBlockBodies /\ d' kEthTx = d kEthTx /\ d' kSenders = d kSenders.
Lemma same_blocks_read d d' : same_blocks d d' -> forall n s, read_block d' n s = read_block d n s.
Proof.
  intros (A & B & C & D & E) n s. unfold read_block. rewrite A. destruct (lookup (d kCanonicalHashes) (block_key n)) as [h|]; [|reflexivity]. unfold read_header, read_body, read_transactions, read_senders. now rewrite B, C, D, E.
Qed.
Lemma same_blocks_trans d d' d'' : same_blocks d d' -> same_blocks d' d'' -> same_blocks d d''.
Proof. unfold same_blocks. intros (A & B & C & D & E) (A' & B' & C' & D' & E'). now rewrite A', B', C', D', E'. Qed.
Lemma same_blocks_out b d : same_blocks d (buf_write_to_db b d).
Proof. unfold same_blocks, buf_write_to_db. cbv zeta. repeat split; now rewrite !set_table_other by discriminate. Qed.
Lemma same_blocks_progress d k v : same_blocks d (put d kSyncStageProgress k v).
Proof. unfold same_blocks. repeat split; now rewrite put_other by discriminate. Qed.
Lemma state_progress bm_read d k v : view_eq (state_of bm_read d) (state_of bm_read (put d kSyncStageProgress k v)).
Proof.
  split; [|split; [|split; [|split]]]; intros; cbn [state_of v_account v_storage v_code v_previous v_header]; unfold read_account, read_storage, read_code, read_previous_incarnation, read_header; now rewrite !put_other by discriminate.
Qed.
Lemma tame_progress slot_of d k v : tame_db slot_of d -> tame_db slot_of (put d kSyncStageProgress k v).
Proof. intros [W A S O]. split; [now apply put_wf|..]; rewrite !put_other by discriminate; assumption. Qed.
Lemma set_progress d n : set_stage_progress d kExecutionKey n = Done (put d kSyncStageProgress kExecutionKey (be_fixed 8 n)).
Proof. unfold set_stage_progress, set_stage_data. now rewrite known_execution. Qed.
Lemma lookup_progress d n : wf_db d -> n < 2 ^ 64 -> get_stage_progress (put d kSyncStageProgress kExecutionKey (be_fixed 8 n)) kExecutionKey = Done n.
Proof. intros W Hn. destruct (progress_set d n W Hn) as (d' & E & _ & G & _). rewrite set_progress in E. apply (f_equal (fun x => match x with Done y => y | _ => d end)) in E. cbv beta iota in E. rewrite E. exact G. Qed.

Section Command.
  Variable bm_read : bytes -> bitmap.
  Variable exec : chain_config -> view -> block -> exec_result.
  Variable size : buffer -> N.
  Variable cl : list log -> bytes.
  Variable cr : list receipt -> bytes.
  Variable slot_of : N -> N -> N.
  Notation view_of := (view_of bm_read).
  Notation state_of := (state_of bm_read).
  Notation executes := (executes exec).
  Notation loop := (execute_loop bm_read exec size cl cr).
  Notation cmd := (command_loop bm_read exec size cl cr).
  Hypothesis Sound : sound_exec exec.
  Hypothesis Tame : tame_exec exec slot_of.

  Lemma executes_blocks c d d' n w m w' : same_blocks d d' -> executes c d n w m w' -> executes c d' n w m w'.
  Proof using. intros B H. induction H as [|n w blk h ops rs m w' R X _ IH]; [constructor|]. eapply ex_block; [rewrite (same_blocks_read _ _ B); exact R|exact X|exact IH]. Qed.
  Lemma executes_split c d n w m w' : executes c d n w m w' -> forall k w'', executes c d n w k w'' -> m <= k -> executes c d m w' k w''.
  Proof using.
    induction 1 as [|n w blk h ops rs m w' R X H IH]; intros k w'' H' L; [exact H'|]. apply executes_le in H as L'. inversion H' as [|? ? blk2 h2 ops2 rs2 ? ? R2 X2 H2]; subst.
    - clear - L L'. exfalso. apply (N.lt_irrefl k). eapply N.lt_le_trans; [apply N.lt_succ_diag_r|]. rewrite <- N.add_1_r. eapply N.le_trans; [exact L'|exact L].
    - rewrite R in R2. injection R2 as <- <-. rewrite X in X2. injection X2 as <- <-. now apply IH.
  Qed.
  Lemma command_spec dB p0 w0 c chain to batch wr : lookup_chain_config chain = Some c -> to < 2 ^ 64 ->
    forall fuel d cur w ds, same_blocks dB d -> tame_db slot_of d -> executes c dB p0 w0 (cur + 1) w -> view_eq w (state_of d) ->
    (forall k, cur < k -> k <= to -> read_block dB k true <> Done None) -> cmd fuel d chain (cur + 1) cur to batch wr = Done ds ->
    forall dk, In dk ds -> exists pk wk, cur < pk /\ pk <= to /\ get_stage_progress dk kExecutionKey = Done pk /\ executes c dB p0 w0 (pk + 1) wk /\ view_eq (state_of dk) wk.
  Proof using Sound Tame.
    intros Ec Hto. induction fuel as [|fuel IH]; intros d cur w ds B T Ex V NN E dk I; [discriminate|]. cbn [command_loop] in E. destruct (N.ltb_spec to (cur + 1)) as [L|L]; [injection E as <-; destruct I|].
    unfold execute_blocks in E. rewrite Ec in E. destruct (loop fuel c d buf_empty (cur + 1) to batch wr (Some cur)) as [[[st d'] last]| |] eqn:El; try discriminate. cbn [obind fst snd] in E.
    assert (V0 : view_eq w (view_of d buf_empty)) by (eapply view_eq_trans; [exact V|apply state_empty]).
    destruct (loop_spec bm_read exec size cl cr Sound (tame_buf slot_of) ltac:(intros; eapply tame_run; eauto) ltac:(intros; now apply tame_receipts) _ _ _ _ _ _ _ _ _ _ _ _ _ (tame_empty slot_of) V0 El) as (m & w' & b' & H1 & H2 & H3 & H4 & H5).
    assert (H1' : executes c dB p0 w0 m w').
    { eapply executes_app; [exact Ex|]. eapply executes_blocks; [|exact H1]. clear - B. destruct B as (A & B & C & D & E). unfold same_blocks. now rewrite A, B, C, D, E. }
    pose proof (executes_le _ _ _ _ _ _ _ H1) as Lm.
    destruct st; cbn [call_ends] in H5; try (injection E as <-; now destruct I).
    - destruct H5 as (-> & H5). assert (Lm' : cur + 1 < m /\ m <= to + 1) by (destruct H5 as [H5|[(H5 & _)|(H5 & H6 & _)]]; lia). destruct (N.eqb_spec (cur + 1) m) as [X|_]; [lia|]. subst last. cbn [from_option id] in E. rewrite set_progress in E. cbn [obind] in E.
      assert (T' : tame_db slot_of (buf_write_to_db b' d)) by now apply tame_out.
      assert (V' : view_eq (state_of (put (buf_write_to_db b' d) kSyncStageProgress kExecutionKey (be_fixed 8 (m - 1)))) w').
      { eapply view_eq_trans; [apply view_eq_sym, state_progress|]. eapply view_eq_trans; [apply (transparent bm_read slot_of); assumption|]. now apply view_eq_sym. }
      destruct (cmd fuel _ chain (m - 1 + 1) (m - 1) to batch wr) as [ds'| |] eqn:E'; try discriminate. cbn [obind] in E. injection E as <-. destruct I as [<-|I].
      + exists (m - 1), w'. split; [lia|]. split; [lia|]. split; [apply lookup_progress; [apply (td_wf _ _ T')|lia]|]. split; [|exact V']. now replace (m - 1 + 1) with m by lia.
      + destruct (IH _ (m - 1) w' ds' ltac:(eapply same_blocks_trans; [exact B|]; eapply same_blocks_trans; [apply same_blocks_out|apply same_blocks_progress]) (tame_progress _ _ _ _ T') ltac:(now replace (m - 1 + 1) with m by lia) (view_eq_sym _ _ V')
          ltac:(intros k K1 K2; apply NN; lia) E' dk I) as (pk & wk & K1 & K2 & K3 & K4 & K5). exists pk, wk. split; [lia|]. split; [exact K2|]. split; [exact K3|]. split; assumption.
    - destruct H5 as (_ & H5 & H6). exfalso. apply (NN m); [lia|exact H5|]. rewrite <- H6. symmetry. now apply same_blocks_read.
  Qed.

  (** Completeness *)
  Lemma loop_total fuel : forall c d b n max batch wr last w wf, executes c d n w (max + 1) wf -> view_eq w (view_of d b) -> (N.to_nat (max + 1 - n) < fuel)%nat ->
    exists d' last', loop fuel c d b n max batch wr last = Done (Success, d', last').
  Proof using Sound.
    induction fuel as [|fuel IH]; intros c d b n max batch wr last w wf Ex V L; [lia|]. cbn [execute_loop]. destruct (N.ltb_spec max n) as [Lm|Lm]; [eauto|].
    inversion Ex as [|? ? blk h ops rs ? ? R X Ex']; subst; [lia|]. rewrite R. rewrite <- (se_reads _ Sound c _ _ blk V), X. destruct (se_updates _ Sound _ _ _ _ _ X) as (Ho & Hf).
    set (b1 := if wr then insert_receipts cl cr (buf_run b ops) n rs else buf_run b ops) in *.
    assert (V1 : view_eq (after w ops) (view_of d b1)).
    { eapply view_eq_trans; [apply after_eq; exact V|]. eapply view_eq_trans; [apply view_run; eapply honest_eq; eauto|]. unfold b1. destruct wr; [apply view_receipts|apply view_eq_refl]. }
    destruct (batch <=? size b1); [eauto|]. apply (IH c d b1 (n + 1) max batch wr (Some n) (after w ops) wf Ex' V1). lia.
  Qed.
  Lemma command_total c chain to batch wr : lookup_chain_config chain = Some c -> to < 2 ^ 64 ->
    forall fuel d cur w wf, tame_db slot_of d -> executes c d (cur + 1) w (to + 1) wf -> view_eq w (state_of d) -> (N.to_nat (to + 2 - cur) < fuel)%nat ->
    exists ds, cmd fuel d chain (cur + 1) cur to batch wr = Done ds /\ (cur < to -> exists dl, list.last ds = Some dl /\ get_stage_progress dl kExecutionKey = Done to).
  Proof using Sound Tame.
    intros Ec Hto. induction fuel as [|fuel IH]; intros d cur w wf T Ex V L; [lia|]. cbn [command_loop]. destruct (N.ltb_spec to (cur + 1)) as [Lt|Lt]; [exists []; split; [reflexivity|lia]|].
    unfold execute_blocks. rewrite Ec. assert (V0 : view_eq w (view_of d buf_empty)) by (eapply view_eq_trans; [exact V|apply state_empty]).
    destruct (loop_total fuel c d buf_empty (cur + 1) to batch wr (Some cur) w wf Ex V0 ltac:(lia)) as (d' & last' & El). rewrite El. cbn [obind fst snd].
    destruct (loop_spec bm_read exec size cl cr Sound (tame_buf slot_of) ltac:(intros; eapply tame_run; eauto) ltac:(intros; now apply tame_receipts) _ _ _ _ _ _ _ _ _ _ _ _ _ (tame_empty slot_of) V0 El) as (m & w' & b' & H1 & H2 & H3 & H4 & H5).
    pose proof (executes_le _ _ _ _ _ _ _ H1) as Lm. cbn [call_ends] in H5. destruct H5 as (-> & H5).
    assert (Lm' : cur + 1 < m /\ m <= to + 1) by (destruct H5 as [H5|[(H5 & _)|(H5 & H6 & _)]]; lia). destruct (N.eqb_spec (cur + 1) m) as [X|_]; [lia|]. subst last'. cbn [from_option id]. rewrite set_progress. cbn [obind].
    assert (T' : tame_db slot_of (buf_write_to_db b' d)) by now apply tame_out.
    set (d1 := put (buf_write_to_db b' d) kSyncStageProgress kExecutionKey (be_fixed 8 (m - 1))).
    assert (V' : view_eq w' (state_of d1)).
    { eapply view_eq_trans; [exact H2|]. eapply view_eq_trans; [apply view_eq_sym, (transparent bm_read slot_of); assumption|]. apply state_progress. }
    assert (Ex1 : executes c d1 (m - 1 + 1) w' (to + 1) wf).
    { replace (m - 1 + 1) with m by lia. eapply executes_blocks; [eapply same_blocks_trans; [apply (same_blocks_out b')|apply same_blocks_progress]|]. eapply executes_split; [exact H1|exact Ex|lia]. }
    destruct (IH d1 (m - 1) w' wf ltac:(apply tame_progress; exact T') Ex1 V' ltac:(lia)) as (ds & E & F). rewrite E. cbn [obind]. exists (d1 :: ds). split; [reflexivity|]. intros _. destruct (N.eq_dec (m - 1) to) as [Em|Em].
    - assert (ds = []). { destruct fuel as [|f]; [discriminate E|]. cbn [command_loop] in E. destruct (N.ltb_spec to (m - 1 + 1)) as [_|Z]; [now injection E|lia]. } subst ds. exists d1. split; [reflexivity|]. rewrite <- Em. apply lookup_progress; [apply (td_wf _ _ T')|lia].
    - destruct (F ltac:(lia)) as (dl & F1 & F2). exists dl. split; [|exact F2]. destruct ds; [discriminate F1|exact F1].
  Qed.

  (** When the chain ends before [to]. *)
  Lemma loop_tail fuel : forall c d b n max batch wr last m w wf, (forall b, size b < batch) -> executes c d n w m wf -> view_eq w (view_of d b) -> m <= max -> read_block d m true = Done None -> (N.to_nat (m - n) < fuel)%nat ->
    loop fuel c d b n max batch wr last = Done (BlockNotFound, d, if n =? m then last else Some (m - 1)).
  Proof using Sound.
    induction fuel as [|fuel IH]; intros c d b n max batch wr last m w wf Hs Ex V Hm Hn L; [lia|]. cbn [execute_loop]. pose proof (executes_le _ _ _ _ _ _ _ Ex) as Le. destruct (N.ltb_spec max n) as [Lm|Lm]; [lia|].
    inversion Ex as [|? ? blk h ops rs ? ? R X Ex']; subst; [now rewrite Hn, N.eqb_refl|]. rewrite R. rewrite <- (se_reads _ Sound c _ _ blk V), X. destruct (se_updates _ Sound _ _ _ _ _ X) as (Ho & Hf).
    set (b1 := if wr then insert_receipts cl cr (buf_run b ops) n rs else buf_run b ops) in *.
    assert (V1 : view_eq (after w ops) (view_of d b1)).
    { eapply view_eq_trans; [apply after_eq; exact V|]. eapply view_eq_trans; [apply view_run; eapply honest_eq; eauto|]. unfold b1. destruct wr; [apply view_receipts|apply view_eq_refl]. }
    destruct (N.leb_spec batch (size b1)) as [Z|_]; [specialize (Hs b1); lia|]. pose proof (executes_le _ _ _ _ _ _ _ Ex') as Le'. rewrite (IH c d b1 (n + 1) max batch wr (Some n) m (after w ops) wf Hs Ex' V1 Hm Hn ltac:(lia)).
    destruct (N.eqb_spec n m); [lia|]. destruct (N.eqb_spec (n + 1) m); [replace (m - 1) with n by lia; reflexivity|reflexivity].
  Qed.
End Command.
