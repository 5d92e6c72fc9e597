(** Proofs about the execution of blocks in batches: one call. *)
From stdpp Require Import gmap.
From Verif Require Import Base BaseFacts RlpModel TypesModel TypesSpec BlockModel UtilModel ChainModel DbTable DbModel DbSpec DbProofs BufferModel BufferSpec BufferProofs BufferProofs2 BufferProofs3 BufferProofs4 BufferProofs6 UnwindModel ExecModel ExecSpec.

(** *** States *)
Lemma view_eq_refl w : view_eq w w. Proof. repeat split. Qed.
Lemma view_eq_sym w w' : view_eq w w' -> view_eq w' w.
Proof. intros (A & B & C & D & E). split; [intros; symmetry; now apply A|]. split; [intros; symmetry; now apply B|]. split; [intros; now rewrite C|]. split; [intros; symmetry; now apply D|intros; now rewrite E]. Qed.
Lemma view_eq_trans w1 w2 w3 : view_eq w1 w2 -> view_eq w2 w3 -> view_eq w1 w3.
Proof.
  intros (A & B & C & D & E) (A' & B' & C' & D' & E'). split; [intros a Ha; rewrite (A a Ha); now apply A'|]. split; [intros a i l Ha Hi Hl; rewrite (B a i l Ha Hi Hl); now apply B'|].
  split; [intros h; now rewrite C|]. split; [intros a Ha; rewrite (D a Ha); now apply D'|intros n h; now rewrite E].
Qed.
Lemma after_eq w w' ops : view_eq w w' -> view_eq (after w ops) (after w' ops).
Proof.
  intros (A & B & C & D & E). unfold after. split; [intros a Ha; cbn; now rewrite (A a Ha)|]. split; [intros a i l Ha Hi Hl; cbn; now rewrite (B a i l Ha Hi Hl)|].
  split; [intros h; cbn; now rewrite (C h)|]. split; [intros a Ha; cbn; now rewrite (D a Ha)|exact E].
Qed.
Lemma last_account_cons o ops a x : last_account (o :: ops) a x = last_account ops a (last_account [o] a x).
Proof. destruct o; reflexivity. Qed.
Lemma last_storage_cons o ops a i l x : last_storage (o :: ops) a i l x = last_storage ops a i l (last_storage [o] a i l x).
Proof. destruct o; reflexivity. Qed.

Section Views.
  Variable bm_read : bytes -> bitmap.
  Notation view_of := (view_of bm_read).
  Notation state_of := (state_of bm_read).
  Lemma honest_buffer d ops : forall b, honest_view (view_of d b) ops -> honest bm_read d None b ops.
  Proof.
    induction ops as [|o ops IH]; intros b H; [exact I|]. assert (Ho : honest_op bm_read d None b o).
    { specialize (H [] o ops eq_refl). destruct o; exact H. }
    split; [exact Ho|]. apply IH. destruct (reads_history bm_read d None [o] b (conj Ho I)) as (A1 & A2 & _ & _). change (buf_run b [o]) with (buf_step b o) in *.
    intros pre x post E. specialize (H (o :: pre) x post). rewrite E in H. specialize (H eq_refl). destruct x as [m|a i c|a i h c|a i l v v']; [exact I| |exact I|].
    - cbn [after v_account ExecModel.view_of] in *. rewrite A1, <- last_account_cons. exact H.
    - cbn [after v_storage ExecModel.view_of] in *. rewrite A2, <- last_storage_cons. exact H.
  Qed.
  Lemma view_run d b ops : honest_view (view_of d b) ops -> view_eq (after (view_of d b) ops) (view_of d (buf_run b ops)).
  Proof.
    intros H. apply honest_buffer in H. destruct (reads_history bm_read d None ops b H) as (A1 & A2 & A3 & A4).
    split; [intros a _; cbn; now rewrite A1|]. split; [intros a i l _ _ _; cbn; now rewrite A2|]. split; [intros h; cbn; now rewrite A3|]. split; [intros a _; cbn; now rewrite A4|reflexivity].
  Qed.
  Lemma view_receipts d b n rs cl cr : view_eq (view_of d b) (view_of d (insert_receipts cl cr b n rs)).
  Proof. repeat split. Qed.
  Lemma honest_eq w w' ops : view_eq w w' -> Forall fits_op ops -> honest_view w ops -> honest_view w' ops.
  Proof.
    intros E F H pre o post Eo. specialize (H pre o post Eo). assert (Fo : fits_op o) by (rewrite Eo in F; apply Forall_app in F as (_ & F); now inversion F).
    destruct (after_eq _ _ pre E) as (A & B & _). destruct o as [m|a i c|a i h c|a i l v v']; [exact I| |exact I|].
    - destruct Fo as (Ha & _). now rewrite <- (A a Ha).
    - destruct Fo as (Ha & Hi & Hl & _). now rewrite <- (B a i l Ha Hi Hl).
  Qed.
  Lemma state_empty d : view_eq (state_of d) (view_of d buf_empty).
  Proof.
    split; [intros a _; cbn; unfold buf_read_account; cbn; now rewrite lookup_empty|]. split; [intros a i l _ _ _; cbn; unfold buf_read_storage; cbn; now rewrite lookup_empty|].
    split; [intros h; cbn; unfold buf_read_code; cbn; now rewrite lookup_empty|]. split; [intros a _; cbn; unfold buf_previous_incarnation; cbn; now rewrite lookup_empty|reflexivity].
  Qed.
End Views.

(** *** One call *)
Section Call.
  Variable bm_read : bytes -> bitmap.
  Variable exec : chain_config -> view -> block -> exec_result.
  Variable size : buffer -> N.
  Variable cl : list log -> bytes.
  Variable cr : list receipt -> bytes.
  Notation view_of := (view_of bm_read).
  Notation state_of := (state_of bm_read).
  Notation executes := (executes exec).
  Notation loop := (execute_loop bm_read exec size cl cr).
  Hypothesis Sound : sound_exec exec.

  Lemma executes_eq c d n w m w1 : executes c d n w m w1 -> forall w', view_eq w w' -> exists w1', executes c d n w' m w1' /\ view_eq w1 w1'.
  Proof using Sound.
    induction 1 as [n w|n w blk h ops rs m w1 R X _ IH]; intros w' E; [exists w'; split; [constructor|exact E]|].
    destruct (IH (after w' ops) (after_eq _ _ _ E)) as (w1' & H1 & H2). exists w1'. split; [|exact H2]. eapply ex_block; [exact R| |exact H1]. rewrite <- (se_reads _ Sound c w w' blk E). exact X.
  Qed.
  Lemma executes_le c d n w m w1 : executes c d n w m w1 -> n <= m.
  Proof using. induction 1 as [|? ? ? ? ? ? ? ? ? ? ? IH]; [reflexivity|]. eapply N.le_trans; [|exact IH]. apply N.le_add_r. Qed.
  Lemma executes_app c d n w m w1 : executes c d n w m w1 -> forall k w2, executes c d m w1 k w2 -> executes c d n w k w2.
  Proof using. induction 1 as [|n w blk h ops rs m w1 R X _ IH]; intros k w2 H; [exact H|]. eapply ex_block; eauto. Qed.

  (** How a call ends; blocks n to m - 1 were executed. *)
  Definition call_ends (st : status) (c : chain_config) (d d' : database) (b' : buffer) (n m max batch : N) (w : view) : Prop :=
    match st with
    | Success => d' = buf_write_to_db b' d /\ (m = max + 1 \/ (max < n /\ m = n) \/ (n < m /\ m <= max + 1 /\ batch <= size b'))
    | BlockNotFound => d' = d /\ m <= max /\ read_block d m true = Done None
    | InvalidBlock => d' = d /\ m <= max /\ exists blk h, read_block d m true = Done (Some (blk, h)) /\ exec c w blk = Invalid
    | Failed => d' = d /\ m <= max /\ read_block d m true = Throws
    | UnknownChainId => False
    end.
  Lemma loop_spec (P : buffer -> Prop) : (forall b c w blk ops rs, P b -> exec c w blk = Valid ops rs -> P (buf_run b ops)) -> (forall b n rs, P b -> P (insert_receipts cl cr b n rs)) ->
    forall fuel c d b n max batch wr last st d' last' w, P b -> view_eq w (view_of d b) -> loop fuel c d b n max batch wr last = Done (st, d', last') ->
    exists m w' b', executes c d n w m w' /\ view_eq w' (view_of d b') /\ P b' /\ last' = (if n =? m then last else Some (m - 1)) /\ call_ends st c d d' b' n m max batch w'.
  Proof using Sound.
    intros P1 P2. induction fuel as [|fuel IH]; intros c d b n max batch wr last st d' last' w Pb V E; [discriminate|]. cbn [execute_loop] in E.
    destruct (N.ltb_spec max n) as [L|L].
    { injection E as <- <- <-. exists n, w, b. split; [constructor|]. split; [exact V|]. split; [exact Pb|]. rewrite N.eqb_refl. split; [reflexivity|]. split; [reflexivity|]. right. left. split; [exact L|reflexivity]. }
    destruct (read_block d n true) as [[[blk h]|]| |] eqn:R; try discriminate.
    2,3: injection E as <- <- <-; exists n, w, b; (split; [constructor|]); (split; [exact V|]); (split; [exact Pb|]); rewrite N.eqb_refl; (split; [reflexivity|]); (split; [reflexivity|]); (split; [exact L|]); auto.
    rewrite <- (se_reads _ Sound c _ _ blk V) in E. destruct (exec c w blk) as [ops rs| | |] eqn:X; try discriminate.
    2: injection E as <- <- <-; exists n, w, b; (split; [constructor|]); (split; [exact V|]); (split; [exact Pb|]); rewrite N.eqb_refl; (split; [reflexivity|]); (split; [reflexivity|]); (split; [exact L|]); eauto.
    destruct (se_updates _ Sound _ _ _ _ _ X) as (Ho & Hf).
    set (b1 := if wr then insert_receipts cl cr (buf_run b ops) n rs else buf_run b ops) in *.
    assert (Pb1 : P b1) by (unfold b1; destruct wr; [apply P2|]; eapply P1; eauto).
    assert (V1 : view_eq (after w ops) (view_of d b1)).
    { eapply view_eq_trans; [apply after_eq; exact V|]. eapply view_eq_trans; [apply view_run; eapply honest_eq; eauto|]. unfold b1. destruct wr; [apply view_receipts|apply view_eq_refl]. }
    destruct (batch <=? size b1) eqn:Sz.
    - apply N.leb_le in Sz. injection E as <- <- <-. exists (n + 1), (after w ops), b1. split; [eapply ex_block; [exact R|exact X|constructor]|]. split; [exact V1|]. split; [exact Pb1|].
      destruct (N.eqb_spec n (n + 1)); [lia|]. split; [f_equal; lia|]. split; [reflexivity|]. right. right. split; [lia|]. split; [lia|exact Sz].
    - destruct (IH c d b1 (n + 1) max batch wr (Some n) st d' last' (after w ops) Pb1 V1 E) as (m & w' & b' & H1 & H2 & H3 & H4 & H5). pose proof (executes_le _ _ _ _ _ _ H1) as Le.
      exists m, w', b'. split; [eapply ex_block; eauto|]. split; [exact H2|]. split; [exact H3|]. split.
      { rewrite H4. destruct (N.eqb_spec n m); [lia|]. destruct (N.eqb_spec (n + 1) m); [f_equal; lia|reflexivity]. }
      destruct st; cbn in *; try exact H5. destruct H5 as (E1 & E2). split; [exact E1|]. destruct E2 as [E2|[(E2 & E3)|(E2 & E3 & E4)]]; [now left|left; lia|]. right. right. split; [lia|]. split; assumption.
  Qed.
End Call.

(** *** The write-out of tame buffers *)
Record tame_buf (slot_of : N -> N -> N) (b : buffer) : Prop := {
  tb_wf : wf_buffer b;
  tb_block : b_block b < 2 ^ 64;
  tb_slot : forall a i l v, b_storage b !! (a, i, l) = Some v -> l = slot_of a i;
  tb_code : forall a c, b_accounts b !! a = Some (Some c) -> 0 < a_incarnation c -> a_code_hash c <> kEmptyHash;
  tb_account : forall a i h, b_prefix_code b !! (a, i) = Some h -> is_Some (b_accounts b !! a)
}.
Lemma step_storage b o a i l v : b_storage (buf_step b o) !! (a, i, l) = Some v -> b_storage b !! (a, i, l) = Some v \/ exists x y, o = OStorage a i l x y.
Proof.
  destruct o as [m|a' x c|a' j h c|a' j k x y]; cbn [buf_step]; [auto| |auto|].
  - unfold update_account. destruct (_ && _ && _); [auto|]. destruct (opt_account_eqb c x); auto.
  - unfold update_storage. destruct (y =? x); [auto|]. cbn [b_storage]. rewrite lookup_insert_Some. intros [(E & _)|(_ & E)]; [|auto]. apply pair_equal_spec in E as (E & ->). apply pair_equal_spec in E as (-> & ->). eauto.
Qed.
Lemma run_storage ops : forall b a i l v, b_storage (buf_run b ops) !! (a, i, l) = Some v -> b_storage b !! (a, i, l) = Some v \/ exists x y, In (OStorage a i l x y) ops.
Proof.
  induction ops as [|o ops IH]; intros b a i l v H; [auto|]. apply (IH (buf_step b o)) in H as [H|(x & y & H)]; [|right; exists x, y; now right].
  apply step_storage in H as [H|(x & y & ->)]; [auto|]. right. exists x, y. now left.
Qed.
Lemma step_account b o a c : b_accounts (buf_step b o) !! a = Some c -> b_accounts b !! a = Some c \/ exists x, o = OAccount a x c.
Proof.
  destruct o as [m|a' x c'|a' j h c'|a' j k x y]; cbn [buf_step]; [auto| |auto|].
  - unfold update_account. destruct (_ && _ && _); [auto|]. destruct (opt_account_eqb c' x); [auto|]. cbn [b_accounts]. rewrite lookup_insert_Some. intros [(-> & ->)|(_ & E)]; eauto.
  - unfold update_storage. destruct (y =? x); auto.
Qed.
Lemma run_account ops : forall b a c, b_accounts (buf_run b ops) !! a = Some c -> b_accounts b !! a = Some c \/ exists x, In (OAccount a x c) ops.
Proof.
  induction ops as [|o ops IH]; intros b a c H; [auto|]. apply (IH (buf_step b o)) in H as [H|(x & H)]; [|right; exists x; now right].
  apply step_account in H as [H|(x & ->)]; [auto|]. right. exists x. now left.
Qed.
Lemma step_account_stays b o a : is_Some (b_accounts b !! a) -> is_Some (b_accounts (buf_step b o) !! a).
Proof.
  intros H. destruct o as [m|a' x c|a' j h c|a' j k x y]; cbn [buf_step]; [exact H| |exact H|].
  - unfold update_account. destruct (_ && _ && _); [exact H|]. destruct (opt_account_eqb c x); [exact H|]. cbn [b_accounts]. destruct (N.eq_dec a' a) as [ -> |N]; [rewrite lookup_insert; eauto|now rewrite lookup_insert_ne].
  - unfold update_storage. destruct (y =? x); exact H.
Qed.
Lemma run_account_stays ops : forall b a, is_Some (b_accounts b !! a) -> is_Some (b_accounts (buf_run b ops) !! a).
Proof. induction ops as [|o ops IH]; intros b a H; [exact H|]. apply (IH (buf_step b o)). now apply step_account_stays. Qed.
Lemma run_account_in ops : forall b a x y, In (OAccount a x y) ops -> x <> y -> is_Some (b_accounts (buf_run b ops) !! a).
Proof.
  induction ops as [|o ops IH]; intros b a x y; [intros []|]. intros [ -> |H] N; [|exact (IH (buf_step b o) a x y H N)]. apply (run_account_stays ops). cbn [buf_step]. unfold update_account.
  destruct (opt_account_eqb_spec y x) as [E|_]; [congruence|]. cbn [andb b_accounts]. rewrite lookup_insert. eauto.
Qed.
Lemma step_prefix b o a i h : b_prefix_code (buf_step b o) !! (a, i) = Some h -> b_prefix_code b !! (a, i) = Some h \/ exists c, o = OCode a i h c.
Proof.
  destruct o as [m|a' x c'|a' j h' c'|a' j k x y]; cbn [buf_step]; [auto| | |].
  - unfold update_account. destruct (_ && _ && _); [auto|]. destruct (opt_account_eqb c' x); auto.
  - cbn [update_account_code b_prefix_code]. rewrite lookup_insert_Some. intros [(E & ->)|(_ & E)]; [|auto]. apply pair_equal_spec in E as (-> & ->). eauto.
  - unfold update_storage. destruct (y =? x); auto.
Qed.
Lemma run_prefix ops : forall b a i h, b_prefix_code (buf_run b ops) !! (a, i) = Some h -> b_prefix_code b !! (a, i) = Some h \/ exists c, In (OCode a i h c) ops.
Proof.
  induction ops as [|o ops IH]; intros b a i h H; [auto|]. apply (IH (buf_step b o)) in H as [H|(x & H)]; [|right; exists x; now right].
  apply step_prefix in H as [H|(x & ->)]; [auto|]. right. exists x. now left.
Qed.
Section Tame.
  Variable exec : chain_config -> view -> block -> exec_result.
  Variable slot_of : N -> N -> N.
  Hypothesis Sound : sound_exec exec.
  Hypothesis Tame : tame_exec exec slot_of.
  Lemma tame_empty : tame_buf slot_of buf_empty.
  Proof using. split; [now split|reflexivity| | |]; intros *; cbn; rewrite lookup_empty; discriminate. Qed.
  Lemma tame_run b c w blk ops rs : tame_buf slot_of b -> exec c w blk = Valid ops rs -> tame_buf slot_of (buf_run b ops).
  Proof using Sound Tame.
    intros [W B S C A] X. destruct (se_updates _ Sound _ _ _ _ _ X) as (_ & F). destruct (run_wf ops b W B F) as (W' & B'). split; [exact W'|exact B'| | |].
    - intros a i l v H. apply run_storage in H as [H|(x & y & H)]; [eauto|]. eapply (te_slot _ _ Tame); eauto.
    - intros a y H I. apply run_account in H as [H|(x & H)]; [eauto|]. eapply (te_code _ _ Tame); eauto.
    - intros a i h H. apply run_prefix in H as [H|(co & H)]; [apply run_account_stays; eauto|]. destruct (te_account _ _ Tame _ _ _ _ _ _ _ _ _ X H) as (x & y & I & N). eapply run_account_in; eauto.
  Qed.
  Lemma tame_receipts cl cr b n rs : tame_buf slot_of b -> tame_buf slot_of (insert_receipts cl cr b n rs).
  Proof using. intros [[W1 W2 W3 W4 W5 W6] B S C A]. split; [split; assumption|assumption..]. Qed.
End Tame.

Section WriteOut.
  Variable bm_read : bytes -> bitmap.
  Variable slot_of : N -> N -> N.
  Lemma tame_codes b d : tame_buf slot_of b -> codes_consistent b d.
  Proof using. intros T. split; [|exact (tb_account _ _ T)]. intros a c h E1 E2 E3. exfalso. now apply (tb_code _ _ T a c E1 E3). Qed.
  (** The records of a contract after the write-out. *)
  Lemma slot_records_out b d a i v : tame_buf slot_of b -> wf_db d -> b_storage b !! (a, i, slot_of a i) = Some v ->
    (forall x y, In (storage_prefix (addr a) i, x) (d kPlainState) -> In (storage_prefix (addr a) i, y) (d kPlainState) -> x = y) ->
    forall w, In (storage_prefix (addr a) i, w) (buf_write_to_db b d kPlainState) <-> v <> 0 /\ w = word (slot_of a i) ++ zeroless_view (word v).
  Proof using.
    intros T W E U w. pose proof (tb_wf _ _ T) as Wb. pose proof (wf_multi d kPlainState W eq_refl) as Hs. rewrite out_state. unfold write_to_state_table.
    rewrite (state_fold_single b a i (slot_of a i) v (storage_prefix (addr a) i) (addresses_of b) (d kPlainState) Wb Hs E eq_refl); [|..|exact U].
    - rewrite bool_decide_true; [reflexivity|]. apply elem_of_list_In, addresses_in. right. exists i, (slot_of a i). eauto.
    - intros l N. destruct (b_storage b !! (a, i, l)) eqn:X; [|reflexivity]. apply (tb_slot _ _ T) in X. congruence.
    - intros x Hx. apply addresses_in in Hx as [(y & Ey)|(j & k & (v' & Ey))]; [now apply (wb_accounts b Wb) in Ey|now apply (wb_storage b Wb) in Ey].
  Qed.
  Lemma slot_cases b a i : tame_buf slot_of b -> (exists v, b_storage b !! (a, i, slot_of a i) = Some v) \/ (forall l, b_storage b !! (a, i, l) = None).
  Proof using.
    intros T. destruct (b_storage b !! (a, i, slot_of a i)) as [v|] eqn:E; [eauto|]. right. intros l. destruct (b_storage b !! (a, i, l)) eqn:X; [|reflexivity]. pose proof (tb_slot _ _ T _ _ _ _ X) as ->. congruence.
  Qed.
  Lemma tame_out b d : tame_buf slot_of b -> tame_db slot_of d -> tame_db slot_of (buf_write_to_db b d).
  Proof using.
    intros T [W A Sl O]. pose proof (tb_wf _ _ T) as Wb. pose proof (wf_multi d kPlainState W eq_refl) as Hs. split.
    - now apply out_wf.
    - rewrite out_state. now apply (state_table_accounts b (d kPlainState) Wb Hs A).
    - intros a i v Ha Hi. destruct (slot_cases b a i T) as [(x & E)|E].
      + intros H. apply (slot_records_out b d a i x T W E) in H as (_ & ->); [eexists; reflexivity|]. intros y z. now apply O.
      + rewrite out_state. intros H. apply (state_table_untouched b (d kPlainState) a i v Wb Hs Ha Hi E) in H. now apply Sl.
    - intros a i v v' Ha Hi. destruct (slot_cases b a i T) as [(x & E)|E].
      + intros H H'. apply (slot_records_out b d a i x T W E) in H as (_ & ->); [|intros y z; now apply O]. apply (slot_records_out b d a i x T W E) in H' as (_ & ->); [reflexivity|]. intros y z; now apply O.
      + rewrite out_state. intros H H'. apply (state_table_untouched b (d kPlainState) a i v Wb Hs Ha Hi E) in H. apply (state_table_untouched b (d kPlainState) a i v' Wb Hs Ha Hi E) in H'. eapply O; eauto.
  Qed.
  Lemma out_header b d n h : read_header (buf_write_to_db b d) n h = read_header d n h.
  Proof using. unfold read_header. assert (E : buf_write_to_db b d kHeaders = d kHeaders) by (unfold buf_write_to_db; cbv zeta; now rewrite !set_table_other by discriminate). now rewrite E. Qed.
  Lemma transparent b d : tame_buf slot_of b -> tame_db slot_of d -> view_eq (state_of bm_read (buf_write_to_db b d)) (view_of bm_read d b).
  Proof using.
    intros T [W A Sl O]. pose proof (tb_wf _ _ T) as Wb. split; [|split; [|split; [|split]]].
    - intros a Ha. cbn. apply out_accounts; auto. now apply tame_codes.
    - intros a i l Ha Hi Hl. cbn. destruct (slot_cases b a i T) as [(x & E)|E].
      + apply (out_storage_single bm_read b d a i (slot_of a i) x l W Wb E); [|intros y z; now apply O|intros y; now apply Sl|exact Hl].
        intros k N. destruct (b_storage b !! (a, i, k)) eqn:X; [|reflexivity]. apply (tb_slot _ _ T) in X. congruence.
      + now apply out_storage_untouched.
    - intros h. cbn. assert (E := out_codes b d h W). unfold buf_read_code at 1 in E. cbn [b_code buf_empty] in E. now rewrite lookup_empty in E.
    - intros a Ha. cbn. assert (E := out_incarnations b d a W Wb Ha). unfold buf_previous_incarnation at 1 in E. cbn [b_incarnations buf_empty] in E. now rewrite lookup_empty in E.
    - intros n h. apply out_header.
  Qed.
End WriteOut.
