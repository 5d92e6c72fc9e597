(** Concrete cases for the database layer. *)
From Verif Require Import Base BaseFacts RlpSpec RlpModel RlpProofs TxModel TxSpec TxProofs4 BlockModel BlockSpec BlockProofs CodecLemmas DbTable DbModel DbSpec DbProofs DbBlockProofs.

Definition empty_db : database := fun _ => [].
Lemma empty_wf : wf_db empty_db.
Proof. intros t. destruct (multi t); constructor. Qed.

(** *** A gap in the ids *)
Definition gap_db : database := put (put empty_db kEthTx (be_fixed 8 5) (wire_tx sample_tx)) kEthTx (be_fixed 8 7) (wire_tx sample_legacy_tx).
Lemma gap_wf : wf_db gap_db /\ keys8 (gap_db kEthTx).
Proof. split; [apply put_wf, put_wf, empty_wf|]. repeat constructor; [exists 5|exists 7]; split; reflexivity. Qed.
Lemma gap_reads : lookup (gap_db kEthTx) (be_fixed 8 6) = None /\ read_transactions gap_db 5 2 = Done [no_sender sample_tx; no_sender sample_legacy_tx] /\ read_transactions gap_db 4 2 = Done [].
Proof. split; [reflexivity|]. split; [vm_compute; reflexivity|reflexivity]. Qed.

(** *** A stored block *)
Definition sample_hash : bytes := repeat 7 32.
Definition sample_sender : bytes := repeat 9 20.
Definition sample_block : block := mkBlock sample_header [sample_tx; sample_legacy_tx] [sample_header].
Definition sample_db : database :=
  put (put (put (put (put (put empty_db kCanonicalHashes (be_fixed 8 1) sample_hash)
    kHeaders (be_fixed 8 1 ++ sample_hash) (RLP (header_item sample_header)))
    kBlockBodies (be_fixed 8 1 ++ sample_hash) (RLP (stored_item (mkStored 5 2 [sample_header]))))
    kEthTx (be_fixed 8 5) (wire_tx sample_tx))
    kEthTx (be_fixed 8 6) (wire_tx sample_legacy_tx))
    kSenders (be_fixed 8 1 ++ sample_hash) (concat [sample_sender; sample_sender]).
Lemma sample_db_wf : wf_db sample_db /\ keys8 (sample_db kEthTx).
Proof. split; [repeat apply put_wf; apply empty_wf|]. repeat constructor; [exists 5|exists 6]; split; reflexivity. Qed.
Lemma sample_holds : holds_block sample_db 1 sample_hash sample_block 5 [sample_sender; sample_sender].
Proof.
  constructor; try reflexivity.
  - intros [|[|[|i]]] t E; try discriminate; injection E as <-; reflexivity.
  - right. reflexivity.
Qed.
Lemma sample_holding : wf_holding sample_block 5 [sample_sender; sample_sender].
Proof.
  constructor.
  - exact sample_header_ok.
  - split; [reflexivity|]. split; [reflexivity|]. split; [constructor; [apply sample_header_ok|constructor]|]. unfold small_item. vm_compute. reflexivity.
  - constructor; [exact sample_tx_ok|]. constructor; [exact sample_legacy_ok|constructor].
  - repeat constructor.
  - reflexivity.
Qed.

(** *** Stages, versions, modes *)
Lemma known_stage s : is_known_stage s = true <-> In s kAllStages.
Proof.
  unfold is_known_stage. rewrite andb_true_iff, existsb_exists. split.
  - intros (_ & x & I & E). apply eqb_true in E. now subst x.
  - intros I. split; [|exists s; split; [exact I|apply eqb_refl]]. cbn in I. repeat (destruct I as [ <- |I]; [reflexivity|]). destruct I.
Qed.
Definition stage_Execution : bytes := [69; 120; 101; 99; 117; 116; 105; 111; 110].
Definition stage_Headers : bytes := [72; 101; 97; 100; 101; 114; 115].
Definition sample_ops : list stage_op := [SetProgress stage_Execution 5; SetUnwind stage_Execution 3; SetProgress stage_Headers 9; SetProgress stage_Execution 6; ClearUnwind stage_Headers].
Lemma sample_ops_ok : Forall (fun o => In (op_name o) kAllStages /\ op_fits o) sample_ops
  /\ last_progress sample_ops stage_Execution 0 = 6 /\ last_progress sample_ops stage_Headers 0 = 9 /\ last_unwind sample_ops stage_Execution 0 = 3.
Proof. split; [|repeat split; reflexivity]. unfold sample_ops. repeat (apply Forall_cons; [split; [cbn; auto 10|reflexivity || exact I]|]). constructor. Qed.
Lemma stage_history' ops d : wf_db d -> Forall (fun o => In (op_name o) kAllStages /\ op_fits o) ops ->
  exists d', stage_run d ops = Done d' /\ wf_db d'
    /\ (forall t, t <> kSyncStageProgress -> t <> kSyncStageUnwind -> d' t = d t)
    /\ (forall s p, get_stage_progress d s = Done p -> get_stage_progress d' s = Done (last_progress ops s p))
    /\ (forall s u, get_stage_unwind d s = Done u -> get_stage_unwind d' s = Done (last_unwind ops s u)).
Proof. intros W F. apply stage_history; [exact W|]. eapply Forall_impl; [|exact F]. intros o (I & Fo). split; [now apply known_stage|exact Fo]. Qed.
Lemma stage_fresh' d s : In s kAllStages -> d kSyncStageProgress = [] -> d kSyncStageUnwind = [] -> get_stage_progress d s = Done 0 /\ get_stage_unwind d s = Done 0.
Proof. intros I P U. apply known_stage in I. split; [now apply (proj1 (stage_fresh s))|now apply (proj2 (stage_fresh s))]. Qed.
Lemma stage_unknown' d s n : ~ In s kAllStages -> get_stage_progress d s = Throws /\ set_stage_progress d s n = Throws /\ get_stage_unwind d s = Throws /\ set_stage_unwind d s n = Throws /\ clear_stage_unwind d s = Throws.
Proof. intros N. apply stage_unknown. destruct (is_known_stage s) eqn:E; [|reflexivity]. now apply known_stage in E. Qed.
Lemma stored_rt b r : wf_stored b -> encode_stored b = RLP (stored_item b) /\ decode_stored (encode_stored b ++ r) = Done (b, r).
Proof. intros H. rewrite stored_encode by exact H. split; [reflexivity|now apply stored_decode]. Qed.
Lemma parse_general s : s <> [100; 101; 102; 97; 117; 108; 116] -> parse_storage_mode s =
  if forallb (fun c => existsb (N.eqb c) mode_letters) s
  then Done (mkMode true (existsb (N.eqb 0x68) s) (existsb (N.eqb 0x72) s) (existsb (N.eqb 0x74) s) (existsb (N.eqb 0x63) s) (existsb (N.eqb 0x65) s))
  else Throws.
Proof.
  intros N. unfold parse_storage_mode. destruct (eqb_spec s [100; 101; 102; 97; 117; 108; 116]) as [E|_]; [contradiction|].
  match goal with |- (if bytes_eqb s ?x then _ else _) = _ => change x with [100; 101; 102; 97; 117; 108; 116] end. destruct (eqb_spec s [100; 101; 102; 97; 117; 108; 116]) as [E|_]; [contradiction|].
  rewrite parse_flags_spec. reflexivity.
Qed.
