(** Properties C24-C29: the world state within a block, at transaction boundaries and across blocks.
    Vocabulary: StateSpec (calls, reference machine), ExactSpec (the machine with incarnations) and MemBufSpec (blocks). *)
From stdpp Require Import gmap.
From Verif Require Import Base RlpModel TypesModel StateModel StateSpec MemBufModel MemBufSpec StateLemmas ExactSpec ExactLemmas ExactFinal ExactBlocksSpec ExactBlocksProofs ExactBlocksCases.

(** ** C24. Reverting to a snapshot. The rest of the history is answered as if what came after the snapshot had not
    happened, except that address 3 stays touched if it was (as the protocol demands). *)
Theorem C24_snapshot_revert keccak code_of db P Q T :
  db_sound code_of db ->
  let i := length (snd (after keccak db P)) in  (* the number of the snapshot taken after P *)
  let history := P ++ [OSnapshot] ++ Q ++ [ORevert i] ++ T in
  lawful keccak db (ibs_new, []) history = true -> codes_apart keccak code_of history ->
  forallb (keeps i) Q = true ->
  let again := if bool_decide (3 ∈ touched (fst (after keccak db (P ++ [OSnapshot] ++ Q)))) then [OTouch 3] else [] in
  exists v, length v = length T
    /\ answers keccak db history = answers keccak db (P ++ [OSnapshot] ++ Q ++ [ORevert i]) ++ v
    /\ answers keccak db (P ++ [OSnapshot] ++ again ++ T) = answers keccak db (P ++ [OSnapshot] ++ again) ++ v.
Proof. exact (fun H => revert_undoes keccak code_of db H P Q T). Qed.
(** [lawful] asks that storage be written only in accounts that exist. Without that the claim fails: the value of a slot of
    an absent account is 5 if the account is then paid, but 0 if 6 was written and reverted in between. *)
Example C24_absent_account keccak :
  answers keccak db9 ([OSetStorage 4 1 5; OSnapshot; OSetStorage 4 1 6; ORevert 0] ++ [OAddBalance 4 1; OCurrent 4 1]) = repeat VUnit 5 ++ [VNum 0]
  /\ answers keccak db9 ([OSetStorage 4 1 5; OSnapshot] ++ [OAddBalance 4 1; OCurrent 4 1]) = repeat VUnit 3 ++ [VNum 5].
Proof. split; vm_compute; reflexivity. Qed.
(** The hypotheses hold of a history that destroys contract 9, revives it, and undoes its creation. *)
Example C24_revived keccak code_of : code_of kEmptyHash = [] ->
  let Q := [OCreate 9; OSetStorage 9 5 1; OSnapshot; OCreate 8; OTouch 3; ORevert 1; OSuicide 9] in
  let history := revival ++ [OSnapshot] ++ Q ++ [ORevert 0] ++ probe 9 5 in
  db_sound code_of db9 /\ length (snd (after keccak db9 revival)) = 0%nat /\ lawful keccak db9 (ibs_new, []) history = true
  /\ codes_apart keccak code_of history /\ forallb (keeps 0) Q = true /\ answers keccak db9 history = repeat VUnit 19 ++ [VUnit; VNum 7; VNum 7].
Proof. exact (revived_case keccak code_of). Qed.

(** ** C25. The answers of any history are those of the reference machine.
    Partial: histories are those of the reference machine, which excludes creating a contract at an address that was
    a contract at the beginning of the block, was destroyed and exists again. *)
Theorem C25_refines_partial keccak code_of db room ops vs w' sn :
  db_ok keccak code_of db room -> codes_ok keccak code_of ops -> N.of_nat (length ops) <= room ->
  arun keccak (db_contract db) (world_of code_of db, []) ops = Some (vs, (w', sn)) ->
  answers keccak db ops = vs.
Proof. exact (refines_answers keccak code_of db room ops vs w' sn). Qed.
(** Without exclusions: the answers of any lawful history are those of the machine with incarnations (ExactSpec), which says
    what happens in the excluded case too. *)
Theorem C25_exact keccak code_of db ops :
  db_sound code_of db -> codes_apart keccak code_of ops -> lawful keccak db (ibs_new, []) ops = true ->
  exists y, xrun keccak code_of db (xworld_of db, []) ops = Some (answers keccak db ops, y).
Proof. exact (fun H => lawful_answers keccak code_of db H ops). Qed.
(** The excluded case does go wrong: the reference without the exclusion answers 0, the implementation 7. *)
Theorem C25_refines_refuted keccak code_of : keccak [] = kEmptyHash -> code_of kEmptyHash = [] ->
  exists db ops vs y, db_ok keccak code_of db 1000 /\ codes_ok keccak code_of ops /\ (length ops < 100)%nat
    /\ arun keccak (fun _ => false) (world_of code_of db, []) ops = Some (vs ++ [VNum 0], y)
    /\ answers keccak db ops = removelast vs ++ [VNum 7] ++ [VNum 7].
Proof.
  intros He Hc. destruct (revived_reference keccak code_of He Hc) as (y & Hy). exists db9, (revival ++ probe 9 5), (repeat VUnit 10 ++ [VUnit; VNum 0]), y.
  split; [exact (db9_ok keccak code_of He Hc)|]. split; [split; [exact He|split; [exact Hc|intros c []]]|]. split; [apply Nat.ltb_lt; reflexivity|]. split; [exact Hy|exact (revived_storage keccak)].
Qed.
Example C25_case keccak code_of : keccak [] = kEmptyHash -> code_of kEmptyHash = [] ->
  exists vs y, arun keccak (db_contract db9) (world_of code_of db9, []) (before_snapshot ++ [OSnapshot] ++ undone ++ [ORevert 0] ++ observing) = Some (vs, y)
    /\ codes_ok keccak code_of (before_snapshot ++ [OSnapshot] ++ undone ++ [ORevert 0] ++ observing).
Proof.
  intros He Hc. destruct (arun keccak (db_contract db9) (world_of code_of db9, []) (before_snapshot ++ [OSnapshot] ++ undone ++ [ORevert 0] ++ observing)) as [[vs y]|] eqn:E.
  - exists vs, y. split; [reflexivity|]. split; [exact He|split; [exact Hc|intros c []]].
  - exfalso. assert (D : match arun keccak (db_contract db9) (world_of code_of db9, []) (before_snapshot ++ [OSnapshot] ++ undone ++ [ORevert 0] ++ observing) with Some _ => true | None => false end = true) by (vm_compute; reflexivity).
    rewrite E in D. discriminate D.
Qed.

(** ** C26. Between two transactions: self-destructed accounts and, from Spurious Dragon on ([eip161]), touched empty
    accounts vanish, the others survive; every original value is the current one; suicides, logs, touched accounts,
    refund and access sets are empty; in whatever order the sets are visited. First, the next transactions are
    answered by the reference machine with incarnations as from that world: *)
Theorem C26_boundary keccak code_of db eip161 P T ls lt vp w sn vt y :
  db_sound code_of db -> codes_apart keccak code_of (P ++ x_boundary eip161 ls lt ++ T) ->
  xrun keccak code_of db (xworld_of db, []) P = Some (vp, (w, sn)) ->
  ls ≡ₚ elements (x_suicides w) -> lt ≡ₚ elements (x_touched w) ->
  xrun keccak code_of db (x_after_boundary eip161 w, []) T = Some (vt, y) ->
  answers keccak db (P ++ x_boundary eip161 ls lt ++ T) = vp ++ map (fun _ => VUnit) (x_boundary eip161 ls lt) ++ vt.
Proof. exact (exact_boundary keccak code_of db eip161 P T ls lt vp w sn vt y). Qed.
(** Second, without any machine: what each query answers after the boundary, in terms of what it answered before. *)
Theorem C26_observed keccak code_of db eip161 P ls lt :
  db_sound code_of db -> codes_apart keccak code_of P -> lawful keccak db (ibs_new, []) P = true ->
  let S := fst (after keccak db P) in
  ls ≡ₚ elements (self_destructs S) -> lt ≡ₚ elements (touched S) ->
  let ask := reply keccak db P in
  let P' := P ++ x_boundary eip161 ls lt in
  let ask' := reply keccak db P' in
  (forall a k,
    let gone := bool_decide (a ∈ self_destructs S) || eip161 && bool_decide (a ∈ touched S) && is_true_reply (ask (OIsDead a)) in
    ask' (OExists a) = (if gone then VBool false else ask (OExists a))
    /\ ask' (OBalance a) = (if gone then VNum 0 else ask (OBalance a))
    /\ ask' (ONonce a) = (if gone then VNum 0 else ask (ONonce a))
    /\ ask' (OCode a) = (if gone then VBytes [] else ask (OCode a))
    /\ ask' (OCodeHash a) = (if gone then VBytes kEmptyHash else ask (OCodeHash a))
    /\ ask' (OCurrent a k) = (if gone then VNum 0 else ask (OCurrent a k))
    /\ ask' (OOriginal a k) = ask' (OCurrent a k)
    /\ ask' (OAccessAccount a) = VBool true /\ ask' (OAccessStorage a k) = VBool true)
  /\ ask' OLogs = VLogs [] /\ ask' ORefund = VNum 0 /\ ask' OSuicides = VNum 0
  /\ self_destructs (fst (after keccak db P')) = ∅ /\ touched (fst (after keccak db P')) = ∅.
Proof. exact (boundary_observed keccak code_of db eip161 P ls lt). Qed.
(** The hypotheses hold after contract 9 was destroyed, revived and created again; 7 destroyed itself and 6 was touched empty. *)
Example C26_case keccak code_of : code_of kEmptyHash = [] ->
  let P := revival ++ [OCreate 9; OSetStorage 9 5 1; OSetBalance 6 0; OAddBalance 7 2; OSuicide 7; OAddRefund 3] in
  db_sound code_of db9 /\ codes_apart keccak code_of P /\ lawful keccak db9 (ibs_new, []) P = true
  /\ [7] ≡ₚ elements (self_destructs (fst (after keccak db9 P))) /\ elements (touched (fst (after keccak db9 P))) ≡ₚ [6; 7]
  /\ (forall eip161, answers keccak db9 (P ++ x_boundary eip161 [7] [6; 7] ++ [OExists 6; OExists 7; OBalance 9; OOriginal 9 5; ORefund])
       = repeat VUnit (if eip161 then 20 else 19) ++ [VBool (negb eip161); VBool false; VNum 1; VNum 1; VNum 0]).
Proof. exact (boundary_case keccak code_of). Qed.

(** ** C27. Writing a block back: a fresh IntraBlockState over the buffer sees the world the block left.
    Partial: as for C25; and code must have been set only in new accounts and created contracts. *)
Theorem C27_write_back_partial keccak code_of room m past w ops vs w' sn s sn' n sord oord T vt y :
  mem_ok keccak code_of room m past w -> codes_ok keccak code_of (ops ++ T) -> N.of_nat (length (ops ++ T)) <= room ->
  arun keccak (contract_in w) (w, []) ops = Some (vs, (w', sn)) -> writable w w' ->
  snd (crun keccak (mem_reader m) (ibs_new, []) ops) = (s, sn') -> order_ok s sord oord ->
  arun keccak (contract_in w') (next_world w', []) T = Some (vt, y) ->
  answers keccak (mem_reader (write_to_db s m n sord oord)) T = vt.
Proof. exact (write_back keccak code_of room m past w ops vs w' sn s sn' n sord oord T vt y). Qed.
(** Any number of blocks, each executed over the buffer the previous ones left. *)
Theorem C27_blocks_partial keccak code_of room m past w blocks vss past2 w2 vss' m2 :
  mem_ok keccak code_of room m past w -> codes_ok keccak code_of (concat (map snd blocks)) -> total_ops blocks <= room ->
  replay keccak past w blocks vss past2 w2 -> mreplay keccak m blocks vss' m2 ->
  vss' = vss /\ mem_ok keccak code_of (room - total_ops blocks) m2 past2 w2.
Proof. exact (blocks_refine keccak code_of room m past w blocks vss past2 w2 vss' m2). Qed.
(** Every lawful history, against the machine with incarnations: after the block, the buffer holds the world the block left.
    What [commits] excepts is what the excluded cases below and in C28 show. *)
Theorem C27_exact keccak code_of m n ops s sn sord oord :
  db_sound code_of (mem_reader m) -> codes_apart keccak code_of ops -> lawful keccak (mem_reader m) (ibs_new, []) ops = true ->
  snd (crun keccak (mem_reader m) (ibs_new, []) ops) = (s, sn) -> order_ok s sord oord ->
  exists vs w snx, xrun keccak code_of (mem_reader m) (xworld_of (mem_reader m), []) ops = Some (vs, (w, snx))
    /\ commits code_of (mem_reader m) w (mem_reader (write_to_db s m n sord oord)).
Proof. exact (write_back_exact keccak code_of m n ops s sn sord oord). Qed.
(** Any number of blocks: each is answered as the machine with incarnations answers it over the store the previous ones left. *)
Theorem C27_blocks_exact keccak code_of fresh m blocks vss m2 :
  lawful_blocks keccak code_of fresh m blocks -> db_sound code_of (mem_reader m) -> mreplay keccak m blocks vss m2 ->
  xreplay keccak code_of (mem_reader m) blocks vss (mem_reader m2).
Proof. exact (replay_exact keccak code_of fresh m blocks vss m2). Qed.
Example C27_exact_case keccak code_of : code_of kEmptyHash = [] ->
  db_sound code_of (mem_reader mem_empty) /\ lawful_blocks keccak code_of false mem_empty forgotten /\ lawful_blocks keccak code_of true mem_empty normal.
Proof. intros He. split; [apply empty_sound|]. split; [now apply forgotten_lawful|now apply normal_lawful]. Qed.
(** The excluded case: the code of a contract created at a revived address is [1] in its block and empty in the next. *)
Theorem C27_lost_code_refuted : keccak0 [] = kEmptyHash /\ exists m, mreplay keccak0 mem_empty lost_code
  [repeat VUnit 7; repeat VUnit 12 ++ [VBytes [1]] ++ repeat VUnit 4; [VBytes []]] m.
Proof. split; [reflexivity|exact lost_code_run]. Qed.
Example C27_case keccak code_of : keccak [] = kEmptyHash -> code_of kEmptyHash = [] ->
  mem_ok keccak code_of 1000 mem_empty (past9 false) (world9 None 0 false false) /\ codes_ok keccak code_of (concat (map snd normal)) /\ total_ops normal <= 1000
  /\ (exists past w, replay keccak (past9 false) (world9 None 0 false false) normal normal_answers past w) /\ exists m, mreplay keccak mem_empty normal normal_answers m.
Proof.
  intros He Hc. split; [apply empty9_ok; reflexivity|]. split; [exact (normal_codes keccak code_of He Hc)|]. split; [vm_compute; discriminate|].
  split; [exact (normal_replay keccak)|exact (normal_run keccak)].
Qed.

(** ** C28. A contract just created has no storage, in the block ... *)
Theorem C28_fresh_partial keccak code_of db room P a k vs y :
  db_ok keccak code_of db room -> codes_ok keccak code_of (P ++ probe a k) -> N.of_nat (length (P ++ probe a k)) <= room ->
  arun keccak (db_contract db) (world_of code_of db, []) (P ++ probe a k) = Some (vs, y) ->
  exists vp, answers keccak db (P ++ probe a k) = vp ++ [VUnit; VNum 0; VNum 0].
Proof. exact (fresh_in_block keccak code_of db room P a k vs y). Qed.
(** ... and after any blocks that created, destroyed and wrote contracts. *)
Theorem C28_fresh_blocks_partial keccak code_of room m past w blocks n P a k Q vss past2 w2 vss' m2 :
  let history := blocks ++ [(n, P ++ probe a k ++ Q)] in
  mem_ok keccak code_of room m past w -> codes_ok keccak code_of (concat (map snd history)) -> total_ops history <= room ->
  replay keccak past w history vss past2 w2 -> mreplay keccak m history vss' m2 ->
  exists before vp vq, vss' = before ++ [vp ++ [VUnit; VNum 0; VNum 0] ++ vq] /\ length vp = length P.
Proof. exact (fresh_across_blocks keccak code_of room m past w blocks n P a k Q vss past2 w2 vss' m2). Qed.
(** Missing: contract 9 is destroyed and then paid in the same block, and created again: the old storage is back. *)
Theorem C28_same_block_refuted keccak code_of : keccak [] = kEmptyHash -> code_of kEmptyHash = [] ->
  db_ok keccak code_of db9 1000 /\ answers keccak db9 (revival ++ probe 9 5) = repeat VUnit 10 ++ [VUnit; VNum 7; VNum 7].
Proof. intros He Hc. split; [exact (db9_ok keccak code_of He Hc)|exact (revived_storage keccak)]. Qed.
(** Missing: the same with the creation in a later block; the old storage is back one block later. *)
Theorem C28_later_block_refuted keccak : exists m, mreplay keccak mem_empty forgotten
  [repeat VUnit 7; repeat VUnit 10; [VUnit; VNum 0; VNum 0] ++ repeat VUnit 5; [VNum 7]] m.
Proof. exact (forgotten_run keccak). Qed.
(** Missing: a plain account at the address of a past contract is emptied and cleared before the creation. *)
Theorem C28_incarnation_reset_refuted keccak : exists m, mreplay keccak mem_empty reset
  [repeat VUnit 7; repeat VUnit 5; repeat VUnit 5; repeat VUnit 5; [VUnit; VNum 0; VNum 0] ++ repeat VUnit 5; [VNum 7]] m.
Proof. exact (reset_run keccak). Qed.

(** ** C29. Unwinding blocks: accounts and storage are those before the blocks, the codes of those accounts read as
    before, and the buffer serves later blocks as if the unwound ones had not been executed.
    Partial: the blocks are those of C27_blocks_partial. *)
Theorem C29_unwind_partial keccak code_of room m past w blocks vss past2 w2 vss' m2 m3 :
  mem_ok keccak code_of room m past w -> codes_ok keccak code_of (concat (map snd blocks)) -> total_ops blocks <= room ->
  replay keccak past w blocks vss past2 w2 -> mreplay keccak m blocks vss' m2 ->
  NoDup (map fst blocks) -> munwind m2 (rev (map fst blocks)) m3 ->
  m_accounts m3 = m_accounts m /\ m_storage m3 = m_storage m
  /\ (forall a c, m_accounts m !! a = Some c -> a_code_hash c <> kEmptyHash ->
        read_code (mem_reader m3) (a_code_hash c) = read_code (mem_reader m) (a_code_hash c))
  /\ mem_ok keccak code_of (room - total_ops blocks) m3 past w.
Proof. exact (unwound keccak code_of room m past w blocks vss past2 w2 vss' m2 m3). Qed.
Example C29_case keccak : exists m m2, mreplay keccak mem_empty normal normal_answers m /\ NoDup (map fst normal) /\ munwind m (rev (map fst normal)) m2.
Proof.
  destruct (normal_run keccak) as (m & Hm). destruct (munwind_exists (rev (map fst normal)) m) as (m2 & H2). exists m, m2. split; [exact Hm|]. split; [|exact H2].
  cbn. repeat constructor; cbn; intuition discriminate.
Qed.
(** Accounts are restored whatever the history: any calls in any blocks over any buffer. *)
Theorem C29_accounts keccak m blocks vss m2 m3 :
  mreplay keccak m blocks vss m2 -> NoDup (map fst blocks) -> munwind m2 (rev (map fst blocks)) m3 -> m_accounts m3 = m_accounts m.
Proof. exact (accounts_restored keccak m blocks vss m2 m3). Qed.
(** Storage is restored after every lawful history in which no account takes on an incarnation under which slots are left. *)
Theorem C29_storage_partial keccak code_of m blocks vss m2 m3 :
  lawful_blocks keccak code_of true m blocks -> db_sound code_of (mem_reader m) -> no_zeros m ->
  mreplay keccak m blocks vss m2 -> NoDup (map fst blocks) -> munwind m2 (rev (map fst blocks)) m3 -> m_storage m3 = m_storage m.
Proof. exact (unwound_storage keccak code_of blocks m vss m2 m3). Qed.
Example C29_storage_case keccak code_of : code_of kEmptyHash = [] -> lawful_blocks keccak code_of true mem_empty normal /\ db_sound code_of (mem_reader mem_empty) /\ no_zeros mem_empty
  /\ exists m m2, mreplay keccak mem_empty normal normal_answers m /\ NoDup (map fst normal) /\ munwind m (rev (map fst normal)) m2.
Proof. intros He. split; [now apply normal_lawful|]. split; [apply empty_sound|]. split; [intros key; cbn; rewrite lookup_empty; discriminate|exact (C29_case keccak)]. Qed.
(** The excluded case: the contract 9 holds 7 in slot 5; it is destroyed and its address credited, a contract is created there
    and writes slot 5. Unwinding both blocks brings back the contract, but its slot reads 0. *)
Theorem C29_unwind_refuted keccak : exists m m2 m3, mreplay keccak mem_empty [(1, b_create)] [repeat VUnit 7] m
  /\ mreplay keccak m rewritten [repeat VUnit 10; [VUnit; VNum 0; VNum 0] ++ repeat VUnit 6] m2 /\ munwind m2 [3; 2] m3
  /\ fst (crun keccak (mem_reader m) (ibs_new, []) [ONonce 9; OCurrent 9 5]) = [VNum 1; VNum 7]
  /\ fst (crun keccak (mem_reader m3) (ibs_new, []) [ONonce 9; OCurrent 9 5]) = [VNum 1; VNum 0].
Proof. exact (rewritten_run keccak). Qed.

Print Assumptions C24_snapshot_revert.
Print Assumptions C25_refines_partial.
Print Assumptions C25_exact.
Print Assumptions C25_refines_refuted.
Print Assumptions C26_boundary.
Print Assumptions C26_observed.
Print Assumptions C27_write_back_partial.
Print Assumptions C27_blocks_partial.
Print Assumptions C27_exact.
Print Assumptions C27_blocks_exact.
Print Assumptions C27_lost_code_refuted.
Print Assumptions C28_fresh_partial.
Print Assumptions C28_fresh_blocks_partial.
(** Contract 9 is created, destroyed and created again; the third block begins with the creation. *)
Example C28_case keccak code_of : keccak [] = kEmptyHash -> code_of kEmptyHash = [] ->
  let history := firstn 2 normal ++ [(3, [] ++ probe 9 5 ++ [OSetNonce 9 1; OSetStorage 9 5 8] ++ boundary [] [])] in
  mem_ok keccak code_of 1000 mem_empty (past9 false) (world9 None 0 false false) /\ codes_ok keccak code_of (concat (map snd history)) /\ total_ops history <= 1000
  /\ (exists past w, replay keccak (past9 false) (world9 None 0 false false) history (firstn 3 normal_answers) past w) /\ exists m, mreplay keccak mem_empty history (firstn 3 normal_answers) m.
Proof. exact (fresh_case keccak code_of). Qed.
Example C28_block_case keccak code_of : keccak [] = kEmptyHash -> code_of kEmptyHash = [] ->
  db_ok keccak code_of db9 1000 /\ codes_ok keccak code_of ([OAddBalance 8 1; OSetStorage 9 5 2] ++ probe 8 5)
  /\ exists y, arun keccak (db_contract db9) (world_of code_of db9, []) ([OAddBalance 8 1; OSetStorage 9 5 2] ++ probe 8 5) = Some ([VUnit; VUnit; VUnit; VNum 0; VNum 0], y).
Proof. exact (fresh_block_case keccak code_of). Qed.
Print Assumptions C28_same_block_refuted.
Print Assumptions C28_later_block_refuted.
Print Assumptions C28_incarnation_reset_refuted.
Print Assumptions C29_unwind_partial.
Print Assumptions C29_accounts.
Print Assumptions C29_storage_partial.
Print Assumptions C29_unwind_refuted.
