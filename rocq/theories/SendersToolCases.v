(** The command check_senders: the forms of the properties, and concrete databases. *)
From Coq Require Import Strings.String.
From Verif Require Import Base BaseFacts RlpSpec TxModel BlockModel ChainModel DbTable DbModel DbSpec DbProofs DbBlockProofs DbCases EtlModel EtlSpec EtlLemmas UnwindProofs FarmModel FarmSpec FarmProofs FarmProofs2 FarmLemmas FarmFinal FarmCases FarmWitness SendersToolModel SendersToolProofs SendersToolLemmas SendersToolFinal.
Open Scope list_scope.
Open Scope N_scope.

Section Forms.
  Variable keccak : bytes -> bytes.
  Variable recover : bytes -> bytes -> bool -> option bytes.
  Hypothesis Hk : forall x, length (keccak x) = 32%nat.
  Hypothesis Hr : forall h s p k, recover h s p = Some k -> exists r, k = 4 :: r.
  Variable c : chain_config.
  Variable max : N.
  Lemma plain_prepare d from blocks height_from height_to force : waiting_chain keccak recover d c max from blocks -> from + N.of_nat (length blocks) - 1 <= height_to -> force = false \/ from <= height_from ->
    tool_prepare keccak max c d height_from height_to force = Done (d, Some (map b_hash blocks, (map (batch_of keccak) (grouping max [] blocks), E_finish))).
  Proof.
    intros W Ht F. pose proof (wc_fits _ _ _ _ _ _ _ W). pose proof (wc_positive _ _ _ _ _ _ _ W). rewrite (tool_prepare_eq keccak max c d height_from height_to force (from - 1) (wc_progress _ _ _ _ _ _ _ W)); [|lia|destruct F as [F|F]; [now left|right; lia]].
    now rewrite (prepare_ok keccak recover Hk Hr d c max from blocks W height_from height_to Ht).
  Qed.
  Lemma unwinds_done d n d1 : unwinds d n false = Done (true, Some d1) -> tool_unwind d n = Done d1.
  Proof. unfold unwinds. destruct (tool_unwind d n) as [x| |]; intros E; try discriminate. apply (f_equal (fun x => match x with Done (_, Some y) => y | _ => d end)) in E. cbn in E. now subst x. Qed.
  Lemma forced_prepare d d1 n from blocks height_to : get_stage_progress d kSendersKey = Done n -> n + 1 < 2 ^ 64 -> from <= n -> unwinds d (from - 1) false = Done (true, Some d1) -> waiting_chain keccak recover d1 c max from blocks -> from + N.of_nat (length blocks) - 1 <= height_to ->
    tool_prepare keccak max c d from height_to true = Done (d1, Some (map b_hash blocks, (map (batch_of keccak) (grouping max [] blocks), E_finish))).
  Proof.
    intros Pn Ln L U W Ht. apply unwinds_done in U. rewrite (tool_prepare_forced keccak max c d d1 from height_to n Pn Ln (wc_positive _ _ _ _ _ _ _ W) L U (wc_progress _ _ _ _ _ _ _ W)). apply (plain_prepare d1 from blocks); [exact W|exact Ht|now left].
  Qed.
  Variable pick : list (entry * nat) -> nat.
  Variable max_workers : nat.
  Notation recovers := (recovers keccak recover pick max max_workers c).
  Lemma committed_only d height_from height_to force dry ok r : recovers d height_from height_to force dry ok r -> ok = false \/ dry = true -> r = None.
  Proof. intros R [E|E]; subst; inversion R; reflexivity. Qed.
  Hypothesis Pk : least_first pick.
  Section Plain.
    Variable d : database.
    Variable from : N.
    Variable blocks : list chain_block.
    Variable height_from height_to : N.
    Variable force : bool.
    Hypothesis W : waiting_chain keccak recover d c max from blocks.
    Hypothesis Ht : from + N.of_nat (length blocks) - 1 <= height_to.
    Hypothesis Ff : force = false \/ from <= height_from.
    Notation prep := (plain_prepare d from blocks height_from height_to force W Ht Ff).
    Lemma plain_prefix dry ok r : (forall b, In b blocks -> b_txs b <> []) -> recovers d height_from height_to force dry ok r -> ok = true /\ exists d' m, r = (if dry then None else Some d') /\ (m <= length blocks)%nat /\ senders_stored d from blocks m d'.
    Proof. exact (tool_prefix keccak recover Hk Hr pick Pk max_workers d d c max from blocks W height_from height_to force prep dry ok r). Qed.
    Lemma plain_complete hs bs f1 f : (forall b, In b blocks -> b_txs b <> []) -> tool_prepare keccak max c d height_from height_to force = Done (d, Some (hs, (bs, E_finish))) ->
      tool_run keccak recover max max_workers E_finish (initial hs bs) f1 -> f_main f1 = M_last -> f_completed f1 = length bs -> tool_run keccak recover max max_workers E_finish f1 f -> f_main f = M_end ->
      exists d', conclude pick d f = Done (kStageSuccess, d') /\ senders_stored d from blocks (length blocks) d'.
    Proof.
      intros F Q R1 M1 C1 R2 M2. destruct (same_prepared keccak d d c max blocks height_from height_to force prep _ _ _ _ Q) as (_ & -> & -> & _). destruct (tool_stored_all keccak recover Hk Hr pick Pk max_workers d d c max from blocks W height_from height_to force prep f1 f false F R1 M1 C1 R2 M2) as (d' & _ & X & Y). eauto.
    Qed.
    Lemma plain_can_store : (forall b, In b blocks -> b_txs b <> []) -> exists d', recovers d height_from height_to force false true (Some d') /\ senders_stored d from blocks (length blocks) d'.
    Proof. exact (tool_can_store keccak recover Hk Hr pick Pk max_workers d d c max from blocks W height_from height_to force prep false). Qed.
    Lemma plain_lost : 0 < count blocks -> count blocks <= max -> recovers d height_from height_to force false true (Some d).
    Proof. exact (tool_lost keccak recover Hk Hr pick max_workers d d c max from blocks W height_from height_to force prep). Qed.
    Lemma plain_hangs : 0 < count blocks -> count blocks <= max -> waits_forever keccak recover max max_workers c d height_from height_to force.
    Proof. exact (tool_hangs keccak recover Hk Hr max_workers d d c max from blocks W height_from height_to force prep). Qed.
    Lemma plain_wild : max < count blocks -> runs_wild keccak recover max max_workers c d height_from height_to force.
    Proof. exact (tool_wild keccak recover Hk Hr max_workers d d c max from blocks W height_from height_to force prep). Qed.
    Lemma plain_shifts i j a b ok d' : List.NoDup (map b_hash blocks) -> nth_error blocks i = Some a -> b_txs a = [] -> nth_error blocks j = Some b -> (i < j)%nat -> recovers d height_from height_to force false ok (Some d') -> ok = true /\ read_senders d' (b_number b) (b_hash b) = Done [].
    Proof. exact (tool_shifts keccak recover Hk Hr pick Pk max_workers d d c max from blocks W height_from height_to force prep i j a b ok d'). Qed.
  End Plain.
  Lemma forced_prefix d d1 n from blocks height_to : get_stage_progress d kSendersKey = Done n -> n + 1 < 2 ^ 64 -> from <= n -> unwinds d (from - 1) false = Done (true, Some d1) -> waiting_chain keccak recover d1 c max from blocks -> from + N.of_nat (length blocks) - 1 <= height_to -> (forall b, In b blocks -> b_txs b <> []) ->
    (forall dry ok r, recovers d from height_to true dry ok r -> ok = true /\ exists d' m, r = (if dry then None else Some d') /\ (m <= length blocks)%nat /\ senders_stored d1 from blocks m d')
    /\ exists d', recovers d from height_to true false true (Some d') /\ senders_stored d1 from blocks (length blocks) d'.
  Proof.
    intros Pn Ln L U W Ht F. pose proof (forced_prepare d d1 n from blocks height_to Pn Ln L U W Ht) as Q. split.
    - intros dry ok r. exact (tool_prefix keccak recover Hk Hr pick Pk max_workers d d1 c max from blocks W from height_to true Q dry ok r F).
    - exact (tool_can_store keccak recover Hk Hr pick Pk max_workers d d1 c max from blocks W from height_to true Q false F).
  Qed.
End Forms.

Lemma unwinds_keeps d n dry : wf_db d -> 2 <= n -> n + 1 < 2 ^ 64 -> (forall k v, In (k, v) (d kSenders) -> exists m h, k = block_key_hash m h /\ m < 2 ^ 64 /\ length h = 32%nat) ->
  exists d', unwinds d n dry = Done (true, if dry then None else Some d') /\ (forall m h v, m < 2 ^ 64 -> In (block_key_hash m h, v) (d' kSenders) <-> In (block_key_hash m h, v) (d kSenders) /\ m <= n)
    /\ wf_db d' /\ (forall e, In e (d' kSenders) -> In e (d kSenders)) /\ (forall t, t <> kSenders -> t <> kSyncStageProgress -> d' t = d t) /\ (forall name, get_stage_progress d' name = if bytes_eqb kSendersKey name then Done n else get_stage_progress d name).
Proof.
  intros Wd L0 L K. destruct (tool_unwind_keeps d n Wd L0 L K) as (d' & U & W' & S' & O' & P'). exists d'. split; [unfold unwinds; now rewrite U|]. split; [|split; [exact W'|split; [|split; [exact O'|exact P']]]].
  - intros m h v Lm. rewrite S', filter_In. unfold entry_number. cbn [fst]. rewrite key_no by exact Lm. now rewrite N.leb_le.
  - intros e I. rewrite S' in I. now apply filter_In in I as (I & _).
Qed.
Lemma unwinds_clears d n dry : wf_db d -> n <= 1 -> exists d', unwinds d n dry = Done (true, if dry then None else Some d') /\ d' kSenders = [] /\ (forall t, t <> kSenders -> t <> kSyncStageProgress -> d' t = d t) /\ get_stage_progress d' kSendersKey = Done n.
Proof. intros Wd L. destruct (tool_unwind_clears d n Wd L) as (d' & U & W' & S' & O' & P'). exists d'. split; [unfold unwinds; now rewrite U|]. auto. Qed.

(** ** Concrete databases: the two blocks of FarmWitness with their senders. *)
Definition with_senders (d : database) (l : list chain_block) (n : N) : database := with_progress (fold_left (fun d b => put d kSenders (fst (senders_entry b)) (snd (senders_entry b))) l d) kSendersKey n.
Definition db_c : database := with_senders db_a chain_a 2.
Lemma db_c_wf : wf_db db_c.
Proof. unfold db_c, with_senders, with_progress, db_a, with_block, with_progress. cbn [fold_left combine seq List.length chain_a]. repeat apply put_wf. apply empty_wf. Qed.
Lemma db_c_case : get_stage_progress db_c kSendersKey = Done 2 /\ (forall b, In b chain_a -> read_senders db_c (b_number b) (b_hash b) = Done (b_senders b)) /\ (forall b, In b chain_a -> b_senders b <> []).
Proof. split; [vm_compute; reflexivity|]. split; [intros b [<-|[<-|[]]]; vm_compute; reflexivity|intros b [<-|[<-|[]]]; discriminate]. Qed.
Definition unwound (n : N) : database := match tool_unwind db_c n with Done x => x | _ => db_c end.
Lemma db_c_keys k v : In (k, v) (db_c kSenders) -> exists m h, k = block_key_hash m h /\ m < 2 ^ 64 /\ length h = 32%nat.
Proof.
  assert (H : db_c kSenders = map senders_entry chain_a) by (vm_compute; reflexivity). rewrite H. intros [E|[E|[]]]; apply pair_equal_spec in E as (<- & _); [exists 1, (repeat 9 32)|exists 2, (repeat 7 32)]; repeat split; reflexivity.
Qed.
Lemma unwound_to n : n <= 1 -> unwinds db_c n false = Done (true, Some (unwound n)) /\ unwound n kSenders = [] /\ get_stage_progress (unwound n) kSendersKey = Done n.
Proof. intros L. destruct (tool_unwind_clears db_c n db_c_wf L) as (d' & U & _ & S' & _ & P'). assert (E : unwound n = d') by (unfold unwound; now rewrite U). rewrite E. split; [unfold unwinds; now rewrite U|]. auto. Qed.
(** With --force from block 1, and signatures nothing can be recovered from. *)
Lemma forced_failure : exists d1 hs b, tool_prepare toy_keccak 10 toy_cfg db_c 1 1000 true = Done (d1, Some (hs, ([b], E_finish))) /\ work toy_keccak failing_recover (10 * 20) b = Failed /\ d1 kSenders = [].
Proof.
  destruct (unwound_to 0 ltac:(lia)) as (U & S' & P'). apply unwinds_done in U. exists (unwound 0).
  assert (X : exists hs b, prepare toy_keccak 10 toy_cfg (unwound 0) 1 1000 = Done (inr (hs, ([b], E_finish))) /\ work toy_keccak failing_recover (10 * 20) b = Failed) by (eexists _, _; split; [vm_compute; reflexivity|reflexivity]). destruct X as (hs & b & X & Y). exists hs, b. split; [|split; [exact Y|exact S']].
  rewrite (tool_prepare_forced toy_keccak 10 toy_cfg db_c (unwound 0) 1 1000 2 (proj1 db_c_case) eq_refl eq_refl ltac:(lia) U P'). rewrite (tool_prepare_eq toy_keccak 10 toy_cfg (unwound 0) 1 1000 false 0 P' eq_refl (or_introl eq_refl)). now rewrite X.
Qed.
Lemma plain_failure : exists hs b, tool_prepare toy_keccak 10 toy_cfg db_a 0 1000 false = Done (db_a, Some (hs, ([b], E_finish))) /\ work toy_keccak failing_recover (10 * 20) b = Failed.
Proof. destruct fails_a as (hs & b & X & Y). exists hs, b. split; [|exact Y]. rewrite (tool_prepare_eq toy_keccak 10 toy_cfg db_a 0 1000 false 0 ltac:(vm_compute; reflexivity) eq_refl (or_introl eq_refl)). now rewrite X. Qed.
(** With --force from block 2: block 2 waits, and the senders of block 1 are gone. *)
Definition chain_2 : list chain_block := [toy_block 2 7 [toy_tx 2; toy_tx 3]].
Lemma waits_2 : waiting_chain toy_keccak toy_recover (unwound 1) toy_cfg 10 2 chain_2.
Proof.
  destruct (tool_unwind_clears db_c 1 db_c_wf (N.le_refl 1)) as (d' & U & W' & S' & O' & P'). assert (E : unwound 1 = d') by (unfold unwound; now rewrite U). rewrite <- E in *. clear U d' E. constructor.
  - exact W'.
  - discriminate.
  - intros [|[|i]] b E; try discriminate; injection E as <-; reflexivity.
  - reflexivity.
  - reflexivity.
  - intros b [<-|[]]; reflexivity.
  - exists [(block_key 1, repeat 9 32)]. vm_compute. reflexivity.
  - intros b [<-|[]]; eexists; (split; [vm_compute; reflexivity|reflexivity]).
  - intros k v I. assert (H : unwound 1 kBlockBodies = [(block_key_hash 1 (repeat 9 32), RLP (stored_item (mkStored 5 1 []))); (block_key_hash 2 (repeat 7 32), RLP (stored_item (mkStored 6 2 [])))]) by (vm_compute; reflexivity). rewrite H in I. destruct I as [E|[E|[]]]; apply pair_equal_spec in E as (<- & _); [exists 1, (repeat 9 32)|exists 2, (repeat 7 32)]; repeat split; reflexivity.
  - intros b t [<-|[]] It; cbn [b_txs toy_block] in It; repeat (destruct It as [<-|It]; [split; [reflexivity|discriminate]|]); destruct It.
  - intros b [<-|[]]; repeat constructor.
  - intros b [<-|[]]; cbn; lia.
  - reflexivity.
  - intros k v I. rewrite S' in I. destruct I.
  - exact P'.
  - vm_compute. reflexivity.
  - reflexivity.
Qed.
Lemma forced_case : get_stage_progress db_c kSendersKey = Done 2 /\ unwinds db_c 1 false = Done (true, Some (unwound 1)) /\ waiting_chain toy_keccak toy_recover (unwound 1) toy_cfg 10 2 chain_2 /\ (forall b, In b chain_2 -> b_txs b <> []).
Proof. split; [exact (proj1 db_c_case)|]. split; [exact (proj1 (unwound_to 1 (N.le_refl 1)))|]. split; [exact waits_2|]. intros b [<-|[]]. discriminate. Qed.
Lemma first_block_lost pick max_workers : least_first pick ->
  (forall b, In b chain_a -> read_senders db_c (b_number b) (b_hash b) = Done (b_senders b) /\ b_senders b <> [])
  /\ (exists d', recovers toy_keccak toy_recover pick 10 max_workers toy_cfg db_c 2 1000 true false true (Some d'))
  /\ forall ok d', recovers toy_keccak toy_recover pick 10 max_workers toy_cfg db_c 2 1000 true false ok (Some d') -> read_senders d' 1 (repeat 9 32) = Done [].
Proof.
  intros Pk. destruct db_c_case as (Pc & Rc & Sc). split; [intros b I; split; [now apply Rc|now apply Sc]|]. destruct forced_case as (_ & U & Wc & F).
  destruct (forced_prefix toy_keccak toy_recover toy_hash toy_key toy_cfg 10 pick max_workers Pk db_c (unwound 1) 2 2 chain_2 1000 Pc eq_refl ltac:(lia) U Wc ltac:(vm_compute; discriminate) F) as (A & d' & R & _). split; [eauto|]. clear d' R. intros ok d' R. destruct (A false ok _ R) as (_ & d2 & m & E & Lm & St). apply (f_equal (fun x => match x with Some y => y | None => db_c end)) in E. cbn in E. subst d2.
  destruct St as (Sd & _). destruct (unwound_to 1 (N.le_refl 1)) as (_ & S1 & _). rewrite S1 in Sd. unfold read_senders. rewrite Sd. destruct m as [|[|m]]; [vm_compute; reflexivity|vm_compute; reflexivity|cbn in Lm; lia].
Qed.
(** Three blocks with senders, to be unwound to the second. *)
Definition db_3 : database := with_senders empty_db (chain_a ++ [toy_block 3 5 [toy_tx 4]]) 3.
Lemma db_3_case : wf_db db_3 /\ (forall k v, In (k, v) (db_3 kSenders) -> exists m h, k = block_key_hash m h /\ m < 2 ^ 64 /\ length h = 32%nat) /\ length (db_3 kSenders) = 3%nat /\ exists d', unwinds db_3 2 false = Done (true, Some d') /\ length (d' kSenders) = 2%nat.
Proof.
  assert (Wd : wf_db db_3) by (unfold db_3, with_senders, with_progress; cbn [fold_left app chain_a]; repeat apply put_wf; apply empty_wf).
  assert (H : db_3 kSenders = map senders_entry (chain_a ++ [toy_block 3 5 [toy_tx 4]])) by (vm_compute; reflexivity).
  assert (K : forall k v, In (k, v) (db_3 kSenders) -> exists m h, k = block_key_hash m h /\ m < 2 ^ 64 /\ length h = 32%nat).
  { intros k v. rewrite H. intros [E|[E|[E|[]]]]; apply pair_equal_spec in E as (<- & _); [exists 1, (repeat 9 32)|exists 2, (repeat 7 32)|exists 3, (repeat 5 32)]; repeat split; reflexivity. }
  split; [exact Wd|]. split; [exact K|]. split; [rewrite H; reflexivity|]. destruct (tool_unwind_keeps db_3 2 Wd ltac:(lia) eq_refl K) as (d' & U & _ & S' & _). exists d'. split; [unfold unwinds; now rewrite U|]. rewrite S', H. vm_compute. reflexivity.
Qed.
Lemma cleared_case : wf_db db_c /\ (forall b, In b chain_a -> read_senders db_c (b_number b) (b_hash b) = Done (b_senders b)) /\ exists b, In b chain_a /\ b_number b = 1 /\ b_senders b <> [].
Proof. split; [exact db_c_wf|]. split; [exact (proj1 (proj2 db_c_case))|]. exists (toy_block 1 9 [toy_tx 1]). split; [now left|]. split; [reflexivity|discriminate]. Qed.
Lemma forced_failure_commits pick max_workers : exists d1, recovers toy_keccak failing_recover pick 10 max_workers toy_cfg db_c 1 1000 true false true (Some d1) /\ d1 kSenders = [] /\ db_c kSenders <> [].
Proof. destruct forced_failure as (d1 & hs & b & P & Fb & S1). exists d1. split; [exact (proj1 (tool_failure toy_keccak failing_recover pick 10 max_workers toy_cfg db_c d1 1 1000 true hs b P Fb))|]. split; [exact S1|]. assert (H : db_c kSenders = map senders_entry chain_a) by (vm_compute; reflexivity). rewrite H. discriminate. Qed.
