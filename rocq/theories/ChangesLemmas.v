(** The properties of the commands that execute blocks again in their final form, and concrete cases. *)
From stdpp Require Import gmap.
From Verif Require Import Base BaseFacts RlpModel TypesModel TypesSpec TxModel BlockModel UtilModel ChainModel DbTable DbModel CodecLemmas DbCases BufferModel BufferSpec BufferCases ExecModel ExecLemmas ChangesModel ChangesSpec ChangesProofs.

Lemma check_final bm_read exec fuel d c from to reports m : from <= to -> to < 2 ^ 64 -> check_loop bm_read exec fuel d c from to = (reports, Checked m) ->
  from <= m /\ (m = to \/ (m < to /\ read_block d m true = Done None)) /\ (forall r, In r reports -> from <= about r /\ about r < m)
  /\ forall n, from <= n -> n < m -> exists blk h, read_block d n true = Done (Some (blk, h))
    /\ ((exec c (view_at bm_read d n) blk = Invalid /\ forall r, about r = n -> In r reports <-> r = FailedBlock n)
        \/ exists ops rs recorded calculated slots, exec c (view_at bm_read d n) blk = Valid ops rs /\ read_account_changes d n = Done recorded /\ read_storage_changes d n = Done slots
             /\ b_acc_changes (buf_run buf_empty ops) !! n = Some calculated
             /\ forall r, about r = n -> In r reports <-> expected recorded calculated slots (default ∅ (b_st_changes (buf_run buf_empty ops) !! n)) r).
Proof.
  intros L T E. destruct (loop_checked bm_read exec to T _ _ _ _ _ _ L E) as (A & B & C & D). split; [exact A|]. split; [exact B|]. split; [|exact D].
  intros r I. split; [exact (loop_reports bm_read exec to T _ _ _ _ _ _ E r I)|now apply C].
Qed.
Lemma check_goes bm_read exec fuel d c from to : from <= to -> to < 2 ^ 64 -> (N.to_nat (to - from) < fuel)%nat ->
  (forall n, from <= n -> n < to -> exists blk h, read_block d n true = Done (Some (blk, h))
    /\ (exec c (view_at bm_read d n) blk = Invalid
        \/ exists ops rs recorded calculated slots, exec c (view_at bm_read d n) blk = Valid ops rs /\ read_account_changes d n = Done recorded /\ read_storage_changes d n = Done slots
             /\ b_acc_changes (buf_run buf_empty ops) !! n = Some calculated)) ->
  exists reports, check_loop bm_read exec fuel d c from to = (reports, Checked to).
Proof. intros L T F H. exact (loop_goes bm_read exec to T fuel d c from L F H). Qed.

(** Every block changes an account, or only the first does. *)
Definition toy_changes (c : chain_config) (w : view) (blk : block) : exec_result := Valid [OBegin 1; OAccount 7 None (Some e_account)] [].
Lemma check_case : check_loop (fun _ => ∅) toy_changes 5 two_blocks kMainnetConfig 1 2 = ([NotInDb 1 7; AccountMismatch 1], Checked 2).
Proof. vm_compute. reflexivity. Qed.
Lemma check_stops :
  (forall bm_read exec fuel d c n to blk h ops rs recorded, n < to -> read_block d n true = Done (Some (blk, h)) -> exec c (view_at bm_read d n) blk = Valid ops rs ->
    read_account_changes d n = Done recorded -> b_acc_changes (buf_run buf_empty ops) !! n = None -> check_loop bm_read exec (S fuel) d c n to = ([], Fails))
  /\ check_loop (fun _ => ∅) toy_changes 5 two_blocks kMainnetConfig 1 3 = ([NotInDb 1 7; AccountMismatch 1], Fails)
  /\ check_loop (fun _ => ∅) (fun _ _ _ => Valid [] []) 5 two_blocks kMainnetConfig 1 3 = ([], Fails).
Proof. split; [intros; eapply loop_stops; eassumption|]. split; vm_compute; reflexivity. Qed.

(** *** scan_txs *)
Lemma scan_final bm_read run fuel d c from to lines : from <= to -> to < 2 ^ 64 -> scan_txs bm_read run fuel d c from to = (lines, Some 0%Z) ->
  exists m results, from <= m /\ (m = to \/ (m < to /\ read_block d m true = Done None))
    /\ (forall n, from <= n -> n < m -> exists blk h, read_block d n true = Done (Some (blk, h)) /\ run c (view_at bm_read d n) blk = Some (results n))
    /\ (forall n, In (ScanInvalid n) lines <-> from <= n /\ n < m /\ snd (results n) = false)
    /\ (forall n txs errors, In (Row n txs errors) lines <-> from <= n /\ n < m /\ n mod 50000 = 0
          /\ txs = sum_over (fun k => N.of_nat (length (fst (results k)))) (row_begin from n) (n + 1) mod 2 ^ 64
          /\ errors = sum_over (fun k => N.of_nat (length (filter (fun r => negb (rc_success r)) (fst (results k))))) (row_begin from n) (n + 1) mod 2 ^ 64).
Proof.
  intros L T E. unfold scan_txs in E. rewrite (proj2 (N.ltb_ge _ _) L) in E. destruct (scan_loop bm_read run fuel d c from to 0 0) as (lines' & e) eqn:K.
  destruct e as [m| | |]; try discriminate E. injection E as ->. exists m, (result_of bm_read run d c).
  refine (scan_spec bm_read run to d c T fuel from from 0 0 lines m (N.le_refl _) L _ _ _ K); [intros k A B; lia|now rewrite sum_nil by lia|now rewrite sum_nil by lia].
Qed.
Lemma scan_completes bm_read run fuel d c from to : from <= to -> to < 2 ^ 64 -> (N.to_nat (to - from) < fuel)%nat ->
  (forall n, from <= n -> n < to -> exists blk h res, read_block d n true = Done (Some (blk, h)) /\ run c (view_at bm_read d n) blk = Some res) ->
  exists lines, scan_txs bm_read run fuel d c from to = (lines, Some 0%Z).
Proof.
  intros L T F H. unfold scan_txs. rewrite (proj2 (N.ltb_ge _ _) L). destruct (scan_goes bm_read run to d c T fuel from 0 0 L F H) as (lines & E). rewrite E. eauto.
Qed.
Lemma scan_silent bm_read run fuel d c from to lines : 0 < from -> from <= to -> to <= 50000 -> scan_txs bm_read run fuel d c from to = (lines, Some 0%Z) -> forall n txs errors, ~ In (Row n txs errors) lines.
Proof.
  intros P L T E n txs errors I. destruct (scan_final bm_read run fuel d c from to lines L ltac:(lia) E) as (m & res & A & B & C1 & C2 & R). destruct (proj1 (R _ _ _) I) as (I1 & I2 & I3 & _). clear R C1 C2 E I.
  assert (LT : n < 50000) by (destruct B as [ -> |(B & _)]; lia). rewrite N.mod_small in I3 by exact LT. lia.
Qed.
Definition toy_run (c : chain_config) (w : view) (blk : block) : option (list receipt * bool) := Some ([mkReceipt kLegacy false 21000 [] []], false).
Lemma scan_tail :
  (forall bm_read run fuel d c from to lines, 0 < from -> from <= to -> to <= 50000 -> scan_txs bm_read run fuel d c from to = (lines, Some 0%Z) -> forall n txs errors, ~ In (Row n txs errors) lines)
  /\ scan_txs (fun _ => ∅) (fun _ _ _ => Some ([mkReceipt kLegacy false 21000 [] []], true)) 5 two_blocks kMainnetConfig 1 3 = ([], Some 0%Z).
Proof. split; [intros; eapply scan_silent; eassumption|]. vm_compute. reflexivity. Qed.
Lemma scan_status : scan_txs (fun _ => ∅) toy_run 5 two_blocks kMainnetConfig 1 3 = ([ScanInvalid 1; ScanInvalid 2], Some 0%Z).
Proof. vm_compute. reflexivity. Qed.
(** A block at height 50000 below the one at height 50001. *)
Definition around_row : database :=
  put (put (put (put (put (put empty_db kCanonicalHashes (block_key 49999) hash_of_one) kHeaders (block_key_hash 49999 hash_of_one) (encode_hdr sample_header false)) kBlockBodies (block_key_hash 49999 hash_of_one) (encode_stored (mkStored 0 0 [])))
    kCanonicalHashes (block_key 50000) hash_of_two) kHeaders (block_key_hash 50000 hash_of_two) (encode_hdr sample_header false)) kBlockBodies (block_key_hash 50000 hash_of_two) (encode_stored (mkStored 0 0 [])).
Lemma scan_case : scan_txs (fun _ => ∅) (fun _ _ _ => Some ([mkReceipt kLegacy false 21000 [] []], true)) 5 around_row kMainnetConfig 49999 60000 = ([Row 50000 2 2], Some 0%Z).
Proof. vm_compute. reflexivity. Qed.
