(** The properties of batch execution in their final form, and concrete cases. *)
From stdpp Require Import gmap sorting.
From Verif Require Import Base BaseFacts RlpModel TypesModel TypesSpec TxModel BlockModel UtilModel ChainModel DbTable DbModel DbSpec DbProofs CodecLemmas DbCases BufferModel BufferSpec BufferProofs BufferProofs2 BufferProofs3 BufferProofs4 BufferProofs6 BufferCases UnwindModel UnwindProofs UnwindProofs2 ExecModel ExecSpec ExecProofs ExecProofs2.

Section Final.
  Variable bm_read : bytes -> bitmap.
  Variable exec : chain_config -> view -> block -> exec_result.
  Variable size : buffer -> N.
  Variable cl : list log -> bytes.
  Variable cr : list receipt -> bytes.

  Lemma one_call fuel d chain start max batch wr last st d' last' : sound_exec exec -> execute_blocks bm_read exec size cl cr fuel d chain start max batch wr last = Done (st, d', last') -> st <> UnknownChainId ->
    exists c m w, lookup_chain_config chain = Some c /\ start <= m /\ executes exec c d start (state_of bm_read d) m w /\ last' = (if start =? m then last else Some (m - 1))
      /\ (st <> Success -> d' = d) /\ (st = Success -> (max < start /\ m = start) \/ (start < m /\ m <= max + 1))
      /\ (st = BlockNotFound -> m <= max /\ read_block d m true = Done None)
      /\ (st = InvalidBlock -> m <= max /\ exists blk h, read_block d m true = Done (Some (blk, h)) /\ exec c w blk = Invalid)
      /\ (st = Success -> forall slot_of, tame_exec exec slot_of -> tame_db slot_of d -> view_eq (state_of bm_read d') w /\ tame_db slot_of d').
  Proof.
    intros Sound E NU. unfold execute_blocks in E. destruct (lookup_chain_config chain) as [c|] eqn:Ec; [|injection E as <- <- <-; contradiction].
    destruct (loop_spec bm_read exec size cl cr Sound (fun b => forall slot_of, tame_exec exec slot_of -> tame_buf slot_of b)
        (fun b0 c0 w0 blk0 ops0 rs0 Hb Hx s Hs => tame_run exec s Sound Hs b0 c0 w0 blk0 ops0 rs0 (Hb s Hs) Hx) (fun b0 n0 rs0 Hb s Hs => tame_receipts s cl cr b0 n0 rs0 (Hb s Hs)) _ _ _ _ _ _ _ _ _ _ _ _ _ (fun s _ => tame_empty s) (state_empty bm_read d) E) as (m & w & b' & H1 & H2 & H3 & H4 & H5).
    pose proof (executes_le _ _ _ _ _ _ _ H1) as Le. exists c, m, w. split; [reflexivity|]. split; [exact Le|]. split; [exact H1|]. split; [exact H4|].
    destruct st; cbn [call_ends] in H5; [| |contradiction| |].
    - destruct H5 as (-> & H5). split; [now intros []|]. split; [intros _; destruct H5 as [H5|[H5|(A & B & _)]]; [|auto|right; split; assumption]; destruct (N.eq_dec start m); [left|right]; lia|].
      split; [discriminate|]. split; [discriminate|]. intros _ slot_of T D. split; [eapply view_eq_trans; [apply (transparent bm_read slot_of); auto|now apply view_eq_sym]|]. apply tame_out; auto.
    - destruct H5 as (-> & H5). split; [reflexivity|]. split; [discriminate|]. split; [auto|]. split; [discriminate|]. discriminate.
    - destruct H5 as (-> & H5). split; [reflexivity|]. split; [discriminate|]. split; [discriminate|]. split; [auto|]. discriminate.
    - destruct H5 as (-> & H5). split; [reflexivity|]. split; [discriminate|]. split; [discriminate|]. split; discriminate.
  Qed.
  Lemma command_commits fuel d chain to batch c p ds slot_of : sound_exec exec -> tame_exec exec slot_of -> tame_db slot_of d -> lookup_chain_config chain = Some c -> get_stage_progress d kExecutionKey = Done p -> to < 2 ^ 64 ->
    (forall n, p < n -> n <= to -> read_block d n true <> Done None) -> command bm_read exec size cl cr fuel d chain to batch = Done ds ->
    forall dk, In dk ds -> exists pk wk, p < pk /\ pk <= to /\ get_stage_progress dk kExecutionKey = Done pk /\ executes exec c d (p + 1) (state_of bm_read d) (pk + 1) wk /\ view_eq (state_of bm_read dk) wk.
  Proof.
    intros S T D Ec P Hto NN E dk I. unfold command in E. rewrite P in E. cbn [obind] in E.
    eapply (command_spec bm_read exec size cl cr slot_of S T d (p + 1) (state_of bm_read d) c chain to batch _ Ec Hto fuel d p (state_of bm_read d) ds); eauto; [repeat split|constructor|apply view_eq_refl].
  Qed.
  Lemma command_completes fuel d chain to batch c p wf slot_of : sound_exec exec -> tame_exec exec slot_of -> tame_db slot_of d -> lookup_chain_config chain = Some c -> get_stage_progress d kExecutionKey = Done p -> p < to -> to < 2 ^ 64 ->
    executes exec c d (p + 1) (state_of bm_read d) (to + 1) wf -> (N.to_nat (to + 2 - p) < fuel)%nat ->
    exists ds dl, command bm_read exec size cl cr fuel d chain to batch = Done ds /\ list.last ds = Some dl /\ get_stage_progress dl kExecutionKey = Done to.
  Proof.
    intros S T D Ec P Hp Hto Ex L. unfold command. rewrite P. cbn [obind].
    destruct (command_total bm_read exec size cl cr slot_of S T c chain to batch (read_storage_mode_receipts d) Ec Hto fuel d p (state_of bm_read d) wf D Ex (view_eq_refl _) L) as (ds & E & F).
    destruct (F Hp) as (dl & F1 & F2). exists ds, dl. split; [exact E|]. split; assumption.
  Qed.
  (** The chain in the database ends at block m - 1, the batch does not fill up: the command commits the progress m - 1 and nothing else. *)
  Lemma command_tail fuel d chain to batch c p m wf : sound_exec exec -> wf_db d -> (forall b, size b < batch) -> lookup_chain_config chain = Some c -> get_stage_progress d kExecutionKey = Done p ->
    executes exec c d (p + 1) (state_of bm_read d) m wf -> p + 1 < m -> m <= to -> to < 2 ^ 64 -> read_block d m true = Done None -> (N.to_nat (m + 1 - p) < fuel)%nat ->
    exists d', command bm_read exec size cl cr fuel d chain to batch = Done [d'] /\ get_stage_progress d' kExecutionKey = Done (m - 1) /\ (forall t, t <> kSyncStageProgress -> d' t = d t).
  Proof.
    intros S W Sz Ec P Ex Hm Hto Hto' NB L. unfold command. rewrite P. cbn [obind]. destruct fuel as [|fuel]; [lia|]. cbn [command_loop]. destruct (N.ltb_spec to (p + 1)); [lia|]. unfold execute_blocks. rewrite Ec.
    rewrite (loop_tail bm_read exec size cl cr S fuel c d buf_empty (p + 1) to batch _ (Some p) m (state_of bm_read d) wf Sz Ex (state_empty bm_read d) Hto NB ltac:(lia)).
    destruct (N.eqb_spec (p + 1) m); [lia|]. cbn [obind fst snd from_option id]. rewrite set_progress. cbn [obind]. eexists. split; [reflexivity|]. split; [apply lookup_progress; [exact W|lia]|]. intros t Ht. now apply put_other.
  Qed.

  (** *** The stage *)
  Lemma clean_out b d : buf_clean b = true -> forall t, buf_write_to_db b d t = d t.
  Proof.
    unfold buf_clean. rewrite !andb_true_iff, !bool_decide_eq_true. intros ((((((((E1 & E2) & E3) & E4) & E5) & E6) & E7) & E8) & E9) t.
    unfold buf_write_to_db. cbv zeta. unfold write_map, write_acc_changes, write_st_changes. rewrite E3, E4, E5, E6, E7, E8, E9, !map_to_list_empty. cbn [fold_left].
    assert (A : write_to_state_table b (d kPlainState) = d kPlainState).
    { unfold write_to_state_table. assert (X : addresses_of b = []); [|now rewrite X]. apply Permutation.Permutation_nil. unfold addresses_of. rewrite merge_sort_Permutation. rewrite E1, E2, !dom_empty_L, set_map_empty, union_empty_l_L, elements_empty. reflexivity. }
    rewrite A. unfold set_table. repeat (destruct (tbl_eq_dec _ t) as [<-|]; [reflexivity|]). reflexivity.
  Qed.
  Lemma dirty_throws b d a d' : is_Some (b_accounts b !! a) -> write_out_in true b d <> Done d'.
  Proof.
    intros (x & E). unfold write_out_in. assert (X : buf_clean b = false). { unfold buf_clean. rewrite bool_decide_false; [reflexivity|]. intros Y. rewrite Y, lookup_empty in E. discriminate. } rewrite X. discriminate.
  Qed.
  Lemma stage_dirty fuel : forall c d b n max batch wr a d' n', is_Some (b_accounts b !! a) -> stage_loop bm_read exec size cl cr fuel true c d b n max batch wr <> Done (true, d', n').
  Proof.
    induction fuel as [|fuel IH]; intros c d b n max batch wr a d' n' D E; [discriminate|]. cbn [stage_loop] in E.
    assert (Q : forall b' k, is_Some (b_accounts b' !! a) -> (do x := write_out_in true b' d in Done (true, x, k)) <> Done (true, d', n')).
    { intros b' k D' E'. destruct (write_out_in true b' d) as [x| |] eqn:W; try discriminate. now apply (dirty_throws _ _ _ _ D') in W. }
    destruct (max <? n); [now apply Q in E|]. destruct (read_block d n true) as [[[blk h]|]| |]; try discriminate. cbn [obind] in E. destruct (exec c (view_of bm_read d b) blk) as [ops rs| | |]; try discriminate.
    set (b1 := if wr then insert_receipts cl cr (buf_run b ops) n rs else buf_run b ops) in *.
    assert (D1 : is_Some (b_accounts b1 !! a)) by (unfold b1; destruct wr; now apply (run_account_stays ops)).
    destruct (batch <=? size b1); [now apply Q in E|]. now apply (IH _ _ _ _ _ _ _ _ _ _ D1) in E.
  Qed.
  Lemma stage_fails fuel c d batch max p blk h ops rs a x y d' : get_stage_progress d kBodiesKey = Done max -> get_stage_progress d kExecutionKey = Done p -> p <= max -> read_block d p true = Done (Some (blk, h)) ->
    exec c (view_of bm_read d buf_empty) blk = Valid ops rs -> In (OAccount a x y) ops -> x <> y -> stage_execution bm_read exec size cl cr fuel c d batch <> Done (true, d').
  Proof.
    intros E1 E2 L R X I N E. unfold stage_execution in E. rewrite E1, E2 in E. cbn [obind] in E. destruct (_ && _); [discriminate|]. destruct (_ || _); [discriminate|]. destruct (negb _); [discriminate|].
    destruct fuel as [|fuel]; [discriminate|]. cbn [stage_batches] in E. destruct (N.ltb_spec max p); [lia|].
    destruct (stage_loop bm_read exec size cl cr fuel true c d buf_empty p max batch (read_storage_mode_receipts d)) as [[[r d1] n1]| |] eqn:El; try discriminate. cbn [obind fst snd] in E.
    destruct r; [|discriminate]. destruct fuel as [|fuel]; [discriminate|]. cbn [stage_loop] in El. destruct (N.ltb_spec max p); [lia|]. rewrite R in El. cbn [obind] in El. rewrite X in El.
    set (b1 := if read_storage_mode_receipts d then insert_receipts cl cr (buf_run buf_empty ops) p rs else buf_run buf_empty ops) in *.
    assert (D1 : is_Some (b_accounts b1 !! a)) by (unfold b1; destruct (read_storage_mode_receipts d); now apply (run_account_in ops _ a x y)).
    destruct (batch <=? size b1); [|now apply (stage_dirty _ _ _ _ _ _ _ _ _ _ _ D1) in El]. destruct (write_out_in true b1 d) as [z| |] eqn:Wz; try discriminate. now apply (dirty_throws _ _ _ _ D1) in Wz.
  Qed.
  Lemma stage_loop_unchanged fuel : forall c d b n max batch wr r d' n', stage_loop bm_read exec size cl cr fuel true c d b n max batch wr = Done (r, d', n') -> forall t, d' t = d t.
  Proof.
    induction fuel as [|fuel IH]; intros c d b n max batch wr r d' n' E t; [discriminate|]. cbn [stage_loop] in E.
    assert (Q : forall b' k, (do x := write_out_in true b' d in Done (true, x, k)) = Done (r, d', n') -> d' t = d t).
    { intros b' k E'. unfold write_out_in in E'. destruct (buf_clean b') eqn:Cl; cbn [andb negb obind] in E'; [|discriminate]. injection E' as _ <- _. now apply clean_out. }
    destruct (max <? n); [now apply Q in E|]. destruct (read_block d n true) as [[[blk h]|]| |]; try discriminate; cbn [obind] in E; [|now injection E as _ <- _]. destruct (exec c (view_of bm_read d b) blk) as [ops rs| | |]; try discriminate.
    cbv zeta in E. destruct (batch <=? size _); [now apply Q in E|]. now apply (IH _ _ _ _ _ _ _ _ _ _ E).
  Qed.
  Lemma stage_unchanged fuel c d batch r d' : stage_execution bm_read exec size cl cr fuel c d batch = Done (r, d') -> forall t, d' t = d t.
  Proof.
    unfold stage_execution. intros E t. destruct (get_stage_progress d kBodiesKey) as [max| |]; try discriminate. destruct (get_stage_progress d kExecutionKey) as [p| |]; try discriminate. cbn [obind] in E. destruct (_ && _); [discriminate|]. destruct (_ || _); [discriminate|]. destruct (negb _); [discriminate|].
    set (wr := read_storage_mode_receipts d) in E. clearbody wr. revert d p E. induction fuel as [|fuel IH]; intros d p E; [discriminate|]. cbn [stage_batches] in E. destruct (max <? p); [now injection E as _ <-|].
    destruct (stage_loop _ _ _ _ _ fuel true c d buf_empty p max batch wr) as [[[r1 d1] n1]| |] eqn:El; try discriminate. cbn [obind fst snd] in E. pose proof (stage_loop_unchanged _ _ _ _ _ _ _ _ _ _ _ El t) as Q. destruct r1; [rewrite <- Q; eapply IH; exact E|]. injection E as _ <-. exact Q.
  Qed.
  (** Even in a writable transaction: *block_num is left at a block that has been executed and written. *)
  Lemma stage_repeats fuel : forall c d b n max batch wr d' n' w, sound_exec exec -> view_eq w (view_of bm_read d b) -> stage_loop bm_read exec size cl cr fuel false c d b n max batch wr = Done (true, d', n') -> n' <= max ->
    exists w' b', executes exec c d n w (n' + 1) w' /\ view_eq w' (view_of bm_read d b') /\ d' = buf_write_to_db b' d.
  Proof.
    induction fuel as [|fuel IH]; intros c d b n max batch wr d' n' w Sound V E L; [discriminate|]. cbn [stage_loop write_out_in andb obind] in E. destruct (N.ltb_spec max n) as [Lm|Lm]; [injection E as <- <-; lia|].
    destruct (read_block d n true) as [[[blk h]|]| |] eqn:R; try discriminate. cbn [obind] in E. rewrite <- (se_reads _ Sound c _ _ blk V) in E. destruct (exec c w blk) as [ops rs| | |] eqn:X; try discriminate. destruct (se_updates _ Sound _ _ _ _ _ X) as (Ho & Hf).
    set (b1 := if wr then insert_receipts cl cr (buf_run b ops) n rs else buf_run b ops) in *.
    assert (V1 : view_eq (after w ops) (view_of bm_read d b1)).
    { eapply view_eq_trans; [apply after_eq; exact V|]. eapply view_eq_trans; [apply view_run; eapply honest_eq; eauto|]. unfold b1. destruct wr; [apply view_receipts|apply view_eq_refl]. }
    destruct (batch <=? size b1).
    - injection E as <- <-. exists (after w ops), b1. split; [eapply ex_block; [exact R|exact X|constructor]|]. split; [exact V1|reflexivity].
    - destruct (IH _ _ _ _ _ _ _ _ _ _ Sound V1 E L) as (w' & b' & H1 & H2 & H3). exists w', b'. split; [eapply ex_block; eauto|]. split; assumption.
  Qed.
End Final.

(** *** A chain of two blocks *)
Definition toy_exec (c : chain_config) (w : view) (blk : block) : exec_result :=
  match v_account w 7 with
  | Done None => Valid [OBegin 1; OAccount 7 None (Some e_account)] []
  | Done (Some x) => if account_eqb x e_account then Valid [OBegin 2; OAccount 7 (Some e_account) (Some new_account)] [] else Valid [] []
  | _ => Raises
  end.
Definition hash_of_one : bytes := repeat 1 32.
Definition hash_of_two : bytes := repeat 2 32.
Definition two_blocks : database :=
  put (put (put (put (put (put empty_db kCanonicalHashes (block_key 1) hash_of_one) kHeaders (block_key_hash 1 hash_of_one) (encode_hdr sample_header false)) kBlockBodies (block_key_hash 1 hash_of_one) (encode_stored (mkStored 0 0 [])))
    kCanonicalHashes (block_key 2) hash_of_two) kHeaders (block_key_hash 2 hash_of_two) (encode_hdr sample_header false)) kBlockBodies (block_key_hash 2 hash_of_two) (encode_stored (mkStored 0 0 [])).
Lemma two_blocks_tame : tame_db (fun _ _ => 0) two_blocks.
Proof. split; [unfold two_blocks; repeat apply put_wf; apply empty_wf|..]; change (two_blocks kPlainState) with (@nil entry); unfold one_per_address; cbn [In]; intros; contradiction. Qed.
Lemma read_one : exists blk, read_block two_blocks 1 true = Done (Some (blk, hash_of_one)).
Proof. eexists. vm_compute. reflexivity. Qed.
Lemma read_two : exists blk, read_block two_blocks 2 true = Done (Some (blk, hash_of_two)).
Proof. eexists. vm_compute. reflexivity. Qed.
Lemma read_three : read_block two_blocks 3 true = Done None.
Proof. vm_compute. reflexivity. Qed.
Lemma toy_sound : sound_exec toy_exec.
Proof.
  assert (W1 : wf_account e_account) by (unfold wf_account, u64, u256, hash32, wf_bytes; repeat split; try reflexivity; repeat constructor).
  assert (W2 : wf_account new_account) by (unfold wf_account, u64, u256, hash32, wf_bytes; repeat split; try reflexivity; repeat constructor).
  split.
  - intros c w w' blk (A & _). unfold toy_exec. now rewrite (A 7 eq_refl).
  - intros c w blk ops rs E. unfold toy_exec in E. destruct (v_account w 7) as [[x|]| |] eqn:V; try discriminate.
    + destruct (account_eqb_spec x e_account) as [ -> |]; injection E as <- <-; [|split; [intros [|] o post; discriminate|constructor]]. split.
      * intros pre o post X. destruct pre as [|o1 pre]; [injection X as <- <-; exact I|]. destruct pre as [|o2 pre]; [injection X as <- <- <-; exact V|]. injection X as _ _ X. destruct pre; discriminate X.
      * constructor; [reflexivity|]. constructor; [|constructor]. split; [reflexivity|]. split; intros y Y; apply (inj Some) in Y; subst y; assumption.
    + injection E as <- <-. split.
      * intros pre o post X. destruct pre as [|o1 pre]; [injection X as <- <-; exact I|]. destruct pre as [|o2 pre]; [injection X as <- <- <-; exact V|]. injection X as _ _ X. destruct pre; discriminate X.
      * constructor; [reflexivity|]. constructor; [|constructor]. split; [reflexivity|]. split; [discriminate|]. intros y Y; apply (inj Some) in Y; subst y; assumption.
Qed.
Lemma toy_tame : tame_exec toy_exec (fun _ _ => 0).
Proof.
  assert (H : forall c w blk ops rs o, toy_exec c w blk = Valid ops rs -> In o ops -> (exists n, o = OBegin n) \/ o = OAccount 7 None (Some e_account) \/ o = OAccount 7 (Some e_account) (Some new_account)).
  { intros c w blk ops rs o E. unfold toy_exec in E. destruct (v_account w 7) as [[x|]| |]; try discriminate; [destruct (account_eqb x e_account)|]; injection E as <- <-; cbn; intuition (subst; eauto). }
  split.
  - intros c w blk ops rs a i l x y E I. apply (H _ _ _ _ _ _ E) in I as [(n & X)|[X|X]]; discriminate.
  - intros c w blk ops rs a x y E I. apply (H _ _ _ _ _ _ E) in I as [(n & X)|[X|X]]; [discriminate|..]; injection X as _ _ ->; cbn; lia.
  - intros c w blk ops rs a i h co E I. apply (H _ _ _ _ _ _ E) in I as [(n & X)|[X|X]]; discriminate.
Qed.
Lemma toy_executes bm_read c : exists w, executes toy_exec c two_blocks 1 (state_of bm_read two_blocks) 3 w /\ v_account w 7 = Done (Some new_account) /\ v_account (state_of bm_read two_blocks) 7 = Done None.
Proof.
  destruct read_one as (b1 & R1). destruct read_two as (b2 & R2). eexists. split; [|split; [|reflexivity]].
  - eapply ex_block; [exact R1|reflexivity|]. change (1 + 1) with 2. eapply ex_block; [exact R2|reflexivity|]. change (2 + 1) with 3. constructor.
  - reflexivity.
Qed.
Lemma toy_progress : get_stage_progress two_blocks kExecutionKey = Done 0 /\ wf_db two_blocks /\ lookup_chain_config 1 = Some kMainnetConfig.
Proof. split; [reflexivity|]. split; [apply (td_wf _ _ two_blocks_tame)|reflexivity]. Qed.
Lemma toy_commands bm_read cl cr :
  (exists d1 d2, command bm_read toy_exec (fun _ => 1) cl cr 10 two_blocks 1 2 0 = Done [d1; d2]
     /\ get_stage_progress d1 kExecutionKey = Done 1 /\ read_account bm_read d1 7 None = Done (Some e_account)
     /\ get_stage_progress d2 kExecutionKey = Done 2 /\ read_account bm_read d2 7 None = Done (Some new_account))
  /\ (exists d1, command bm_read toy_exec (fun _ => 1) cl cr 10 two_blocks 1 (2 ^ 64 - 1) 1000 = Done [d1] /\ get_stage_progress d1 kExecutionKey = Done 2 /\ read_account bm_read d1 7 None = Done None).
Proof. split; [do 2 eexists; split; [vm_compute; reflexivity|]; split; [vm_compute; reflexivity|]; split; [vm_compute; reflexivity|]; split; vm_compute; reflexivity|]. eexists. split; [vm_compute; reflexivity|]. split; vm_compute; reflexivity. Qed.
