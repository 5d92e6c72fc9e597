(** Blocks that meet the hypotheses of the theorems about [lawful_blocks], found by a check, and the case in which unwinding fails. *)
From stdpp Require Import gmap.
From Verif Require Import Base BaseFacts RlpModel TypesModel StateModel StateSpec MemBufModel MemBufSpec MemBufProofs StateLemmas ExactSpec ExactProofs ExactBlocksSpec ExactBlocksProofs.

(** Only one order of visiting: every container has at most one element. *)
Definition one_order (s : ibs) : bool :=
  (length (elements (dom (objects s))) <=? 1)%nat && (length (elements (dom (storages s))) <=? 1)%nat
  && forallb (fun a => (length (elements (dom (st_committed (storage_of s a)))) <=? 1)%nat) (elements (dom (storages s))).
Lemma perm_one {A} (l l' : list A) : l ≡ₚ l' -> (length l' <=? 1)%nat = true -> l = l'.
Proof.
  intros H Hl. apply Nat.leb_le in Hl. destruct l' as [|x [|y t]]; [now apply Permutation_nil_r in H| |cbn in Hl; lia].
  symmetry in H. now apply Permutation_length_1_inv in H.
Qed.
Lemma one_order_ok s sord oord : one_order s = true -> order_ok s sord oord -> (sord, oord) = some_order s.
Proof.
  unfold one_order. intros H (H1 & H2 & H3). apply andb_true_iff in H as [H Hk]. apply andb_true_iff in H as [Ho Hs].
  apply perm_one in H3; [|exact Ho]. subst oord. apply perm_one in H1; [|exact Hs]. unfold some_order. f_equal. rewrite <- H1. rewrite <- H1 in Hk. clear H1 Hs Ho.
  rewrite map_map. rewrite <- (map_id sord) at 1. apply map_ext_in. intros [a ks] Hin. cbn [fst]. f_equal. apply perm_one; [apply H2; now apply elem_of_list_In|].
  rewrite forallb_forall in Hk. apply Hk. apply in_map_iff. now exists (a, ks).
Qed.

(** The buffer [m'] after the block over [m]. *)
Definition no_slots (m : membuf) (a i : N) : bool := forallb (fun e => negb (bool_decide (e.1.1.1 = a) && bool_decide (e.1.1.2 = i))) (map_to_list (m_storage m)).
Lemma no_slots_ok m a i k : no_slots m a i = true -> default 0 (m_storage m !! (a, i, k)) = 0.
Proof.
  unfold no_slots. rewrite forallb_forall. intros H. destruct (m_storage m !! (a, i, k)) as [v|] eqn:E; [|reflexivity]. exfalso.
  apply elem_of_map_to_list, elem_of_list_In in E. apply H in E. cbn in E. now rewrite !bool_decide_true in E by reflexivity.
Qed.
Definition leaves_check (fresh : bool) (m m' : membuf) : bool :=
  forallb (fun e => let '(a, c) := e in
    (negb (a_incarnation c =? 0) || no_slots m' a 0)
    && match m_accounts m !! a with
       | Some i => if a_incarnation i =? a_incarnation c then bytes_eqb (a_code_hash c) kEmptyHash || bytes_eqb (a_code_hash i) (a_code_hash c) else negb fresh || no_slots m a (a_incarnation c)
       | None => negb fresh || no_slots m a (a_incarnation c)
       end) (map_to_list (m_accounts m')).
Fixpoint lawful_check (keccak : bytes -> bytes) (fresh : bool) (m : membuf) (blocks : list (N * list op)) : bool :=
  match blocks with
  | [] => true
  | (n, ops) :: rest =>
    let '(_, (s, _)) := crun keccak (mem_reader m) (ibs_new, []) ops in
    let m' := write_to_db s m n (fst (some_order s)) (snd (some_order s)) in
    lawful keccak (mem_reader m) (ibs_new, []) ops && match flat_map op_code ops with [] => true | _ => false end && one_order s && leaves_check fresh m m' && lawful_check keccak fresh m' rest
  end.

Lemma leaves_check_ok code_of fresh m m' w : leaves_check fresh m m' = true -> commits code_of (mem_reader m) w (mem_reader m') ->
  leaves_sound (mem_reader m) w /\ (fresh = true -> unused (mem_reader m) w).
Proof.
  unfold leaves_check. rewrite forallb_forall. intros H C.
  assert (K : forall a c, x_acct w a = Some c -> (negb (a_incarnation c =? 0) || no_slots m' a 0)
    && match m_accounts m !! a with
       | Some i => if a_incarnation i =? a_incarnation c then bytes_eqb (a_code_hash c) kEmptyHash || bytes_eqb (a_code_hash i) (a_code_hash c) else negb fresh || no_slots m a (a_incarnation c)
       | None => negb fresh || no_slots m a (a_incarnation c)
       end = true).
  { intros a c Ec. rewrite <- (co_accounts _ _ _ _ C) in Ec. cbn in Ec. apply (H (a, c)). apply elem_of_list_In, elem_of_map_to_list. exact Ec. }
  split; [split|].
  - intros a c k Ec E0. destruct (andb_prop _ _ (K a c Ec)) as (K1 & _). rewrite E0, N.eqb_refl in K1. cbn in K1.
    destruct (co_storage _ _ _ _ C a c k Ec) as [Hs|(_ & Hs & _)]; [|exact Hs]. rewrite <- Hs, E0. now apply no_slots_ok.
  - intros a i c Ei Ec Hin Hne. destruct (andb_prop _ _ (K a c Ec)) as (_ & K2). cbn in Ei. rewrite Ei, Hin, N.eqb_refl in K2. apply orb_true_iff in K2 as [K2|K2]; apply bytes_eqb_eq in K2; [contradiction|exact K2].
  - intros -> a c k Ec. destruct (andb_prop _ _ (K a c Ec)) as (_ & K2). unfold continues. cbn. destruct (m_accounts m !! a) as [i|]; [|right; now apply no_slots_ok].
    destruct (N.eqb_spec (a_incarnation i) (a_incarnation c)); [left; now exists i|right; now apply no_slots_ok].
Qed.

Lemma lawful_check_ok keccak code_of fresh blocks : code_of kEmptyHash = [] -> forall m, db_sound code_of (mem_reader m) -> lawful_check keccak fresh m blocks = true ->
  lawful_blocks keccak code_of fresh m blocks.
Proof.
  intros He. induction blocks as [|[n ops] rest IH]; intros m Hdb H; [constructor|]. cbn [lawful_check] in H.
  destruct (crun keccak (mem_reader m) (ibs_new, []) ops) as [vs0 [s0 sn0]] eqn:Ec. set (m' := write_to_db s0 m n (fst (some_order s0)) (snd (some_order s0))) in *.
  apply andb_true_iff in H as [H H5]. apply andb_true_iff in H as [H H4]. apply andb_true_iff in H as [H H3]. apply andb_true_iff in H as [H1 H2].
  assert (Ha : codes_apart keccak code_of ops) by (split; [exact He|]; intros c Hc; destruct (flat_map op_code ops); [destruct Hc|discriminate]).
  destruct (exact_runs keccak code_of (mem_reader m) Hdb (proj1 Ha) ops (proj2 Ha) H1) as (vx & [w snx] & Ex).
  destruct (block_exact keccak code_of m n ops vx vs0 w snx s0 sn0 _ _ Hdb Ha Ex Ec (some_order_ok s0)) as (_ & C & _). fold m' in C.
  pose proof (leaves_check_ok _ _ _ _ _ H4 C) as L. constructor; [exact H1|exact Ha| |].
  - intros vs w' sn E. rewrite Ex in E. injection E as <- <- <-. exact L.
  - intros vs s sn sord oord E Ho. rewrite Ec in E. injection E as <- <- <-. pose proof (one_order_ok _ _ _ H3 Ho) as Eo.
    replace sord with (fst (some_order s0)) by (now rewrite <- Eo). replace oord with (snd (some_order s0)) by (now rewrite <- Eo). apply IH; [|exact H5].
    exact (commits_sound _ _ _ _ Hdb C (proj1 L)).
Qed.

Lemma empty_sound code_of : db_sound code_of (mem_reader mem_empty).
Proof. split; [reflexivity|]. intros a c. cbn. now rewrite lookup_empty. Qed.
Lemma normal_lawful keccak code_of : code_of kEmptyHash = [] -> lawful_blocks keccak code_of true mem_empty normal.
Proof. intros He. apply lawful_check_ok; [exact He|apply empty_sound|]. vm_compute. reflexivity. Qed.
Lemma forgotten_lawful keccak code_of : code_of kEmptyHash = [] -> lawful_blocks keccak code_of false mem_empty forgotten.
Proof. intros He. apply lawful_check_ok; [exact He|apply empty_sound|]. vm_compute. reflexivity. Qed.

(** ** Unwinding, in one particular order *)
Fixpoint unrun (m : membuf) (l : list N) : membuf :=
  match l with
  | [] => m
  | n :: t => unrun (unwind_state_changes m n (elements (dom (default ∅ (m_acc_changes m !! n)))) (elements (dom (default ∅ (m_st_changes m !! n))))) t
  end.
Lemma unrun_munwind l : forall m, munwind m l (unrun m l).
Proof. induction l as [|n t IH]; intros m; [constructor|]. econstructor; [|apply IH]. now split. Qed.

(** the contract 9 of block 1 is destroyed and its address credited in block 2; in block 3 a contract is created there and writes slot 5; then blocks 3 and 2 are unwound *)
Definition rewritten : list (N * list op) := [(2, revival); (3, probe 9 5 ++ [OSetNonce 9 1; OSetStorage 9 5 9] ++ boundary [] [])].
Lemma rewritten_run keccak : exists m m2 m3, mreplay keccak mem_empty [(1, b_create)] [repeat VUnit 7] m
  /\ mreplay keccak m rewritten [repeat VUnit 10; [VUnit; VNum 0; VNum 0] ++ repeat VUnit 6] m2 /\ munwind m2 [3; 2] m3
  /\ fst (crun keccak (mem_reader m) (ibs_new, []) [ONonce 9; OCurrent 9 5]) = [VNum 1; VNum 7]
  /\ fst (crun keccak (mem_reader m3) (ibs_new, []) [ONonce 9; OCurrent 9 5]) = [VNum 1; VNum 0].
Proof.
  pose (r1 := mrun keccak mem_empty [(1, b_create)]). pose (r2 := mrun keccak (snd r1) rewritten). exists (snd r1), (snd r2), (unrun (snd r2) [3; 2]).
  split; [|split; [|split; [|split]]].
  - replace [repeat VUnit 7] with (fst r1) by (vm_compute; reflexivity). apply mrun_mreplay.
  - match goal with |- mreplay _ _ _ ?x _ => replace x with (fst r2) by (vm_compute; reflexivity) end. apply mrun_mreplay.
  - apply unrun_munwind.
  - vm_compute. reflexivity.
  - vm_compute. reflexivity.
Qed.

(** ** A contract created anew, for C28 *)
Lemma replay_prefix keccak l1 : forall past w l2 vss past2 w2, replay keccak past w (l1 ++ l2) vss past2 w2 -> exists p q, replay keccak past w l1 (firstn (length l1) vss) p q.
Proof.
  induction l1 as [|b l1 IH]; intros past w l2 vss past2 w2 H; [eexists _, _; apply replay_nil|]. cbn [app length] in *. inversion H; subst.
  match goal with X : replay _ _ _ (l1 ++ l2) _ _ _ |- _ => destruct (IH _ _ _ _ _ _ X) as (p & q & R) end. exists p, q. cbn [firstn]. eapply replay_cons; eassumption.
Qed.
Lemma fresh_case keccak code_of : keccak [] = kEmptyHash -> code_of kEmptyHash = [] ->
  let history := firstn 2 normal ++ [(3, [] ++ probe 9 5 ++ [OSetNonce 9 1; OSetStorage 9 5 8] ++ boundary [] [])] in
  mem_ok keccak code_of 1000 mem_empty (past9 false) (world9 None 0 false false) /\ codes_ok keccak code_of (concat (map snd history)) /\ total_ops history <= 1000
  /\ (exists past w, replay keccak (past9 false) (world9 None 0 false false) history (firstn 3 normal_answers) past w) /\ exists m, mreplay keccak mem_empty history (firstn 3 normal_answers) m.
Proof.
  intros He Hc history. split; [apply empty9_ok; reflexivity|]. split; [split; [exact He|]; split; [exact Hc|]; intros c H; vm_compute in H; destruct H|]. split; [vm_compute; discriminate|]. split.
  - destruct (normal_replay keccak) as (p & w & R). exact (replay_prefix keccak history _ _ [(4, [OCurrent 9 5])] normal_answers p w R).
  - apply mrun_exists. vm_compute. reflexivity.
Qed.
Lemma fresh_block_case keccak code_of : keccak [] = kEmptyHash -> code_of kEmptyHash = [] ->
  db_ok keccak code_of db9 1000 /\ codes_ok keccak code_of ([OAddBalance 8 1; OSetStorage 9 5 2] ++ probe 8 5)
  /\ exists y, arun keccak (db_contract db9) (world_of code_of db9, []) ([OAddBalance 8 1; OSetStorage 9 5 2] ++ probe 8 5) = Some ([VUnit; VUnit; VUnit; VNum 0; VNum 0], y).
Proof.
  intros He Hc. split; [exact (db9_ok keccak code_of He Hc)|]. split; [split; [exact He|]; split; [exact Hc|]; intros c []|]. eexists. vm_compute. reflexivity.
Qed.
