(** The command check_senders: what it stores, and what goes wrong. *)
From Coq Require Import Strings.String Permutation Sorting.Sorted.
From Verif Require Import Base BaseFacts TxModel BlockModel ChainModel DbTable DbModel DbSpec DbProofs DbBlockProofs EtlModel EtlSpec EtlProofs EtlLemmas UnwindProofs UnwindProofs2 HashStateModel HashStateProofs HashStateProofs2 FarmModel FarmSpec FarmProofs FarmProofs2 FarmLemmas FarmFinal FarmRuns FarmCases SendersToolModel SendersToolProofs.
Open Scope list_scope.
Open Scope N_scope.

(** ** Before any worker *)
Lemma tool_prepare_eq keccak max c d height_from height_to force n : get_stage_progress d kSendersKey = Done n -> n + 1 < 2 ^ 64 -> force = false \/ n < height_from ->
  tool_prepare keccak max c d height_from height_to force
  = match prepare keccak max c d height_from height_to with Done (inl _) => Done (d, None) | Done (inr x) => Done (d, Some x) | Throws => Throws | Undefined => Undefined end.
Proof.
  intros P L F. unfold tool_prepare, prepare, tool_range. rewrite P. cbn [obind]. rewrite (N.mod_small (n + 1)) by exact L.
  set (h := if n + 1 <? height_from then n + 1 else height_from).
  assert (E : (if h <=? n then if force then do d0 := tool_unwind d (if h =? 0 then h else h - 1) in Done (d0, h) else Done (d, n + 1) else Done (d, h)) = Done (d, if h <=? n then n + 1 else h)).
  { destruct (N.leb_spec h n) as [X|X]; [|reflexivity]. destruct F as [->|F]; [reflexivity|]. exfalso. revert X. unfold h. destruct (N.ltb_spec (n + 1) height_from); lia. }
  rewrite E. cbn [obind]. destruct (get_stage_progress d kBlockBodiesKey) as [bodies| |]; cbn [obind]; try reflexivity. set (h2 := if h <=? n then n + 1 else h).
  destruct ((bodies <? height_to) && (bodies <? h2)); [reflexivity|]. destruct (N.min height_to bodies <? h2); [reflexivity|]. destruct (fill_canonical_headers d h2 (N.min height_to bodies)) as [[hs|]| |]; cbn [obind]; try reflexivity.
  destruct (negb _); [reflexivity|]. destruct hs as [|x hs]; [reflexivity|]. destruct (find (d kBlockBodies) (block_key_hash h2 x)); reflexivity.
Qed.
Lemma tool_prepare_forced keccak max c d d1 height_from height_to n : get_stage_progress d kSendersKey = Done n -> n + 1 < 2 ^ 64 -> 0 < height_from -> height_from <= n -> tool_unwind d (height_from - 1) = Done d1 -> get_stage_progress d1 kSendersKey = Done (height_from - 1) ->
  tool_prepare keccak max c d height_from height_to true = tool_prepare keccak max c d1 height_from height_to false.
Proof.
  intros P L L0 L1 U P1. unfold tool_prepare. rewrite P, P1. cbn [obind]. rewrite !N.mod_small by lia. replace (height_from - 1 + 1) with height_from by lia. destruct (N.ltb_spec (n + 1) height_from) as [X|X]; [lia|]. rewrite N.ltb_irrefl. destruct (N.leb_spec height_from n) as [Y|Y]; [|lia]. destruct (N.eqb_spec height_from 0) as [Z|Z]; [lia|]. rewrite U. cbn [obind]. destruct (N.leb_spec height_from (height_from - 1)); [lia|]. reflexivity.
Qed.

(** ** Interleavings *)
Section Go.
  Variable keccak : bytes -> bytes.
  Variable recover : bytes -> bytes -> bool -> option bytes.
  Variable max : N.
  Variable max_workers : nat.
  Notation work := (work keccak recover (max * 20)).
  Notation main_step := (main_step max_workers E_finish).
  Notation tool_step := (tool_step max_workers E_finish).
  Notation worker_step := (worker_step keccak recover (max * 20)).
  Notation run := (tool_run keccak recover max max_workers E_finish).
  Notation results_of := (results_of keccak recover (max * 20)).

  Definition lone (w : worker) q n next hs col m : farm := mkFarm [w] q n false next hs col m.
  Lemma main_then f f1 f2 : run f f1 -> (forall b todo, f_main f1 <> M_buffer b todo) -> main_step f1 f2 -> run f f2.
  Proof. intros R N St. eapply trun_main; [exact R|]. now apply t_main. Qed.
  Lemma step_then f f1 f2 : run f f1 -> tool_step f1 f2 -> run f f2.
  Proof. apply trun_main. Qed.
  Lemma worker_then f f1 f2 : run f f1 -> worker_step 0 f1 f2 -> run f f2.
  Proof. apply trun_worker. Qed.
  Lemma tool_trans f0 f1 f2 : run f0 f1 -> run f1 f2 -> run f0 f2.
  Proof. intros R1 R2. induction R2 as [f|f f1 f2 R IH St|f f1 f2 i R IH St]; [exact R1| |]; [exact (trun_main _ _ _ _ _ _ _ _ (IH R1) St)|exact (trun_worker _ _ _ _ _ _ _ _ i (IH R1) St)]. Qed.
  Lemma t_new headers b todo : run (initial headers (b :: todo)) (lone new_worker [] 0 0 headers [] (M_scan b todo)).
  Proof.
    eapply main_then; [eapply main_then; [apply trun_nil| |]| |].
    - discriminate.
    - eapply (m_enter max_workers E_finish); [reflexivity|reflexivity].
    - discriminate.
    - eapply (m_new max_workers E_finish); [reflexivity|apply nobody|apply nobody|right; reflexivity].
  Qed.
  Lemma t_waits headers b todo : run (initial headers (b :: todo)) (lone (mkWorker Idle false None 0 [] W_wait) [] 0 0 headers [] (M_scan b todo)).
  Proof. eapply worker_then; [apply t_new|]. exact (w_clears keccak recover (max * 20) 0 (lone new_worker [] 0 0 headers [] (M_scan b todo)) _ eq_refl eq_refl). Qed.
  (** A batch given to the worker and done. *)
  Lemma t_given i0 n hs col b todo rs : work b = Ready rs -> run (lone (mkWorker Idle false None i0 [] W_wait) [] n n hs col (M_scan b todo)) (lone (mkWorker ResultsReady false (Some b) n rs W_signal) [] n (S n) hs col (M_next todo)).
  Proof.
    intros E. eapply worker_then; [eapply main_then; [apply trun_nil| |]|].
    - discriminate.
    - exact (m_set_work max_workers E_finish (lone (mkWorker Idle false None i0 [] W_wait) [] n n hs col (M_scan b todo)) b todo 0 _ eq_refl (first_idle (mkWorker Idle false None i0 [] W_wait) eq_refl) eq_refl).
    - exact (w_ready keccak recover (max * 20) 0 (lone (mkWorker Working true (Some b) n [] W_wait) [] n (S n) hs col (M_next todo)) _ b rs eq_refl eq_refl eq_refl eq_refl E).
  Qed.
  Lemma t_signalled n next hs col b rs m : run (lone (mkWorker ResultsReady false (Some b) n rs W_signal) [] n next hs col m) (lone (mkWorker ResultsReady false (Some b) n rs W_reset) [(0%nat, n)] (S n) next hs col m).
  Proof. eapply worker_then; [apply trun_nil|]. exact (w_pushes keccak recover (max * 20) 0 (lone (mkWorker ResultsReady false (Some b) n rs W_signal) [] n next hs col m) _ eq_refl eq_refl eq_refl). Qed.
  Lemma t_reset s k n q cn next hs col b rs m : run (lone (mkWorker s k (Some b) n rs W_reset) q cn next hs col m) (lone (mkWorker s k None n rs W_wait) q cn next hs col m).
  Proof. eapply worker_then; [apply trun_nil|]. exact (w_resets keccak recover (max * 20) 0 (lone (mkWorker s k (Some b) n rs W_reset) q cn next hs col m) _ eq_refl eq_refl). Qed.
  (** The farm finds the results of the worker while it looks for one for the next batch. *)
  Lemma t_collects pc ob n cn next hs col b2 todo rs es hs' : bufferize hs rs = Some (es, hs') ->
    run (lone (mkWorker ResultsReady false ob n rs pc) [(0%nat, n)] cn next hs col (M_next (b2 :: todo))) (lone (mkWorker Idle false ob n [] pc) [] cn next hs' (col ++ es) (M_scan b2 todo)).
  Proof.
    intros B. eapply step_then; [eapply step_then; [eapply main_then; [eapply main_then; [apply trun_nil| |]| |]|]|].
    - discriminate.
    - eapply (m_enter max_workers E_finish); [reflexivity|reflexivity].
    - discriminate.
    - eapply (m_finished max_workers E_finish _ b2 todo 0); [reflexivity| |].
      + intros w [<-|[]]. discriminate.
      + eexists. split; [reflexivity|]. split; [left; reflexivity|]. intros j v L. lia.
    - eapply (t_round max_workers E_finish _ _ b2 todo); [reflexivity|]. exact (round_pull (lone (mkWorker ResultsReady false ob n rs pc) [(0%nat, n)] cn next hs col (M_buffer b2 todo)) 0 n [] _ es hs' eq_refl eq_refl eq_refl B).
    - exact (t_goes_on max_workers E_finish (lone (mkWorker Idle false ob n [] pc) [] cn next hs' (col ++ es) (M_buffer b2 todo)) _ b2 todo eq_refl (round_empty (lone (mkWorker Idle false ob n [] pc) [] cn next hs' (col ++ es) (M_buffer b2 todo)) eq_refl)).
  Qed.
  (** One after the other. *)
  Lemma t_every todo : forall i0 n hs col b rs es hs', results_of (b :: todo) = Some rs -> bufferize hs rs = Some (es, hs') ->
    exists f1 f2, run (lone (mkWorker Idle false None i0 [] W_wait) [] n n hs col (M_scan b todo)) f1 /\ f_main f1 = M_last /\ f_completed f1 = (n + S (length todo))%nat /\ run f1 f2 /\ f_main f2 = M_end.
  Proof.
    induction todo as [|b2 todo IH]; intros i0 n hs col b rs es hs' Rs B.
    - cbn [results_of] in Rs. destruct (work b) as [r| |] eqn:Wb; try discriminate. injection Rs as <-. rewrite app_nil_r in B.
      exists (lone (mkWorker ResultsReady false (Some b) n r W_reset) [(0%nat, n)] (S n) (S n) hs col M_last), (lone (mkWorker Idle false (Some b) n [] W_reset) [] (S n) (S n) hs' (col ++ es) M_end).
      split; [|split; [reflexivity|split; [cbn; lia|split; [|reflexivity]]]].
      + eapply main_then; [eapply main_then; [eapply tool_trans; [apply (t_given i0 n hs col b [] r Wb)|apply t_signalled]| |]| |].
        * discriminate.
        * eapply (m_read max_workers E_finish); reflexivity.
        * discriminate.
        * exact (m_waited max_workers E_finish (lone (mkWorker ResultsReady false (Some b) n r W_reset) [(0%nat, n)] (S n) (S n) hs col M_wait) eq_refl ltac:(intros w [<-|[]]; discriminate)).
      + eapply main_then; [eapply main_then; [apply trun_nil| |]| |].
        * discriminate.
        * eapply (m_last max_workers E_finish); [reflexivity|]. exact (round_pull (lone (mkWorker ResultsReady false (Some b) n r W_reset) [(0%nat, n)] (S n) (S n) hs col M_last) 0 n [] _ es hs' eq_refl eq_refl eq_refl B).
        * discriminate.
        * exact (m_end max_workers E_finish (lone (mkWorker Idle false (Some b) n [] W_reset) [] (S n) (S n) hs' (col ++ es) M_last) _ true eq_refl (round_empty (lone (mkWorker Idle false (Some b) n [] W_reset) [] (S n) (S n) hs' (col ++ es) M_last) eq_refl)).
    - change (results_of (b :: b2 :: todo)) with (match work b, results_of (b2 :: todo) with Ready r, Some rs => Some (r ++ rs) | _, _ => None end) in Rs. destruct (work b) as [r| |] eqn:Wb; try discriminate. destruct (results_of (b2 :: todo)) as [rs2|] eqn:R2; [|discriminate]. injection Rs as <-.
      rewrite bufferize_app in B. destruct (bufferize hs r) as [(es1, hs1)|] eqn:B1; [|discriminate]. destruct (bufferize hs1 rs2) as [(es2, hs2)|] eqn:B2; [|discriminate].
      destruct (IH n (S n) hs1 (col ++ es1) b2 rs2 es2 hs2 R2 B2) as (f1 & f2 & R & M & Cf & Rf & Mf). exists f1, f2. split; [|split; [exact M|split; [rewrite Cf; cbn [length]; lia|split; [exact Rf|exact Mf]]]].
      eapply tool_trans; [|exact R]. eapply tool_trans; [apply (t_given i0 n hs col b (b2 :: todo) r Wb)|]. eapply tool_trans; [apply t_signalled|]. eapply tool_trans; [apply t_reset|]. now apply t_collects.
  Qed.
  (** The worker has still to let go of the batch it has done when it gets the next one. *)
  Lemma t_race headers b b2 todo rs es hs' : work b = Ready rs -> bufferize headers rs = Some (es, hs') -> exists f w, run (initial headers (b :: b2 :: todo)) f /\ In w (f_workers f) /\ w_pc w = W_undefined.
  Proof.
    intros E B. exists (lone (mkWorker Working false None 1 [] W_undefined) [] 1 2 hs' ([] ++ es) (M_next todo)). eexists. split; [|split; [left; reflexivity|reflexivity]].
    eapply worker_then; [eapply tool_trans; [eapply main_then; [eapply tool_trans; [apply t_waits|]| |]|]|].
    - eapply tool_trans; [apply (t_given 0 0 headers [] b (b2 :: todo) rs E)|]. eapply tool_trans; [apply t_signalled|]. eapply t_collects. exact B.
    - discriminate.
    - exact (m_set_work max_workers E_finish (lone (mkWorker Idle false (Some b) 0 [] W_reset) [] 1 1 hs' ([] ++ es) (M_scan b2 todo)) b2 todo 0 _ eq_refl (first_idle (mkWorker Idle false (Some b) 0 [] W_reset) eq_refl) eq_refl).
    - apply (t_reset Working true 1 [] 1 2 hs' ([] ++ es) b2 [] (M_next todo)).
    - exact (w_null keccak recover (max * 20) 0 (lone (mkWorker Working true None 1 [] W_wait) [] 1 2 hs' ([] ++ es) (M_next todo)) _ eq_refl eq_refl eq_refl eq_refl).
  Qed.
  Lemma t_lost headers b rs : work b = Ready rs -> exists f, run (initial headers [b]) f /\ f_main f = M_end /\ f_collected f = [].
  Proof.
    intros E. exists (lone (mkWorker ResultsReady false (Some b) 0 rs W_signal) [] 0 1 headers [] M_end). split; [|split; reflexivity].
    eapply main_then; [eapply main_then; [eapply main_then; [eapply tool_trans; [apply t_waits|apply (t_given 0 0 headers [] b [] rs E)]| |]| |]| |].
    - discriminate.
    - eapply (m_read max_workers E_finish); reflexivity.
    - discriminate.
    - exact (m_waited max_workers E_finish (lone (mkWorker ResultsReady false (Some b) 0 rs W_signal) [] 0 1 headers [] M_wait) eq_refl ltac:(intros w [<-|[]]; discriminate)).
    - discriminate.
    - exact (m_end max_workers E_finish (lone (mkWorker ResultsReady false (Some b) 0 rs W_signal) [] 0 1 headers [] M_last) _ true eq_refl (round_empty (lone (mkWorker ResultsReady false (Some b) 0 rs W_signal) [] 0 1 headers [] M_last) eq_refl)).
  Qed.
  Lemma t_stuck headers b : exists f, run (initial headers [b]) f /\ f_main f = M_wait /\ forall f', run f f' -> f' = f.
  Proof.
    exists (lone (mkWorker Working false (Some b) 0 [] W_wait) [] 0 1 headers [] M_wait). split; [|split; [reflexivity|]].
    - eapply main_then; [eapply worker_then; [eapply main_then; [apply t_new| |]|]| |].
      + discriminate.
      + exact (m_set_work max_workers E_finish (lone new_worker [] 0 0 headers [] (M_scan b [])) b [] 0 _ eq_refl (first_idle new_worker eq_refl) eq_refl).
      + eapply w_clears; [reflexivity|reflexivity].
      + discriminate.
      + exact (m_read max_workers E_finish (lone (mkWorker Working false (Some b) 0 [] W_wait) [] 0 1 headers [] (M_next [])) eq_refl).
    - intros f' R. remember (lone (mkWorker Working false (Some b) 0 [] W_wait) [] 0 1 headers [] M_wait) as f eqn:Ef. induction R as [f|f f1 f2 R IH St|f f1 f2 i R IH St]; [reflexivity| |]; specialize (IH Ef); subst f1; rewrite Ef in St.
      + inversion St as [? ? _ Sm|? ? ? ? M|? ? ? ? M|? ? ? ? M]; subst; try discriminate M. inversion Sm as [? ? ? M|? ? ? M|? M|? ? ? ? ? M|? ? ? ? M|? ? ? M|? ? ? M|? ? ? ? M|? ? ? ? M|? ? ? ? M|? ? M|? M N|? ? M|? ? ? M]; subst; try discriminate M; [reflexivity|]. exfalso. exact (N _ (or_introl eq_refl) eq_refl).
      + inversion St as [? ? X Y|? ? X Y K|? ? ? ? X Y K|? ? ? ? X Y K|? ? ? X Y K|? ? X Y|? ? X Y]; subst; (destruct i as [|[|i]]; [|discriminate X|discriminate X]); injection X as <-; try discriminate Y; discriminate K.
  Qed.
  Lemma t_failed headers b : work b = Failed -> exists f, run (initial headers [b]) f /\ f_main f = M_end.
  Proof.
    intros E. eexists. split; [|shelve]. eapply main_then; [eapply main_then; [eapply main_then; [eapply worker_then; [eapply worker_then; [eapply main_then; [apply t_waits| |]|]|]| |]| |]| |].
    - discriminate.
    - exact (m_set_work max_workers E_finish (lone (mkWorker Idle false None 0 [] W_wait) [] 0 0 headers [] (M_scan b [])) b [] 0 _ eq_refl (first_idle (mkWorker Idle false None 0 [] W_wait) eq_refl) eq_refl).
    - eapply (w_error _ _ _ 0 _ _ b []); [reflexivity|reflexivity|reflexivity|reflexivity|exact E].
    - eapply w_pushes; [reflexivity|reflexivity|reflexivity].
    - discriminate.
    - eapply (m_read max_workers E_finish); reflexivity.
    - discriminate.
    - eapply (m_waited max_workers E_finish); [reflexivity|]. intros w [<-|[]]. discriminate.
    - discriminate.
    - eapply (m_end max_workers E_finish); [reflexivity|]. eapply round_error; [reflexivity|reflexivity|reflexivity].
      Unshelve. reflexivity.
  Qed.
  Lemma t_failed_end headers b f : work b = Failed -> run (initial headers [b]) f -> f_stop f = true \/ f_collected f = [].
  Proof.
    intros E R. apply tool_invariant in R as [(X & _)|(k & I)]; [now left|]. right. destruct (t_collected _ _ _ _ _ _ _ I) as (rs & Rs & B). destruct k as [|k].
    - cbn [firstn FarmProofs.results_of] in Rs. injection Rs as <-. cbn [bufferize] in B. now injection B as <-.
    - cbn [firstn FarmProofs.results_of] in Rs. rewrite E in Rs. discriminate.
  Qed.
End Go.
