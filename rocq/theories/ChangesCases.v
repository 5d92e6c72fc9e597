(** What the commands that execute blocks again read. *)
From stdpp Require Import gmap.
From Verif Require Import Base BlockModel TypesModel UtilModel ChainModel DbTable DbModel DbSpec BufferModel BufferSpec BufferProofs BufferProofs2 BufferProofs3 BufferProofs4 BufferProofs5 BufferProofs6 BufferProofs7 BufferCases ExecModel ChangesModel.

Lemma reads_at bm_read d n : let w := view_at bm_read d n in
  (forall a, v_account w a = read_account bm_read d a (Some n)) /\ (forall a i l, v_storage w a i l = read_storage bm_read d a i l (Some n))
  /\ (forall h, v_code w h = default [] (read_code d h)) /\ (forall a, v_previous w a = (do r := read_previous_incarnation d a (Some n) in Done (default 0 r))) /\ v_header w = read_header d.
Proof.
  cbn. split; [intros a; unfold buf_read_account; cbn; now rewrite lookup_empty|]. split; [intros a i l; unfold buf_read_storage; cbn; now rewrite lookup_empty|].
  split; [intros h; unfold buf_read_code; cbn; now rewrite lookup_empty|]. split; [intros a; unfold buf_previous_incarnation; cbn; now rewrite lookup_empty|reflexivity].
Qed.
Lemma slots_before bm_read d a inc loc n changed val last : wf_db d -> (forall m, val m < 2 ^ 256) -> slot_history changed val ->
  history_stored bm_read d a inc loc n changed val last -> v_storage (view_at bm_read d n) a inc loc = Done (val n).
Proof. intros W B S H. rewrite (proj1 (proj2 (reads_at bm_read d n))). exact (historical_storage_stored bm_read d a inc loc n changed val last W B S H). Qed.
Lemma accounts_now :
  (forall bm_read d a n, wf_db d -> (forall k v, In (k, v) (d kCode) -> List.length k = 32%nat) -> v_account (view_at bm_read d n) a = read_account bm_read d a None)
  /\ wf_db past_db /\ read_account_changes past_db 5 = Done {[3 := encode_for_storage old_account false]} /\ v_account (view_at bm5 past_db 3) 3 = Done (Some new_account).
Proof.
  split; [intros bm_read d a n W K; rewrite (proj1 (reads_at bm_read d n)); now apply historical_reads_current|]. split; [exact past_wf|]. split; [exact (proj1 past_reads)|].
  rewrite (proj1 (reads_at bm5 past_db 3)). exact (proj1 (proj2 past_reads)).
Qed.
