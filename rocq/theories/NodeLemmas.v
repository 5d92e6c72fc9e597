(** C30 over MemoryBuffer and the processor: final forms. *)
From stdpp Require Import gmap.
From Verif Require Import Base BaseFacts RlpModel TxModel BlockModel TypesModel ChainModel TrieSpec TrieLemmas StateModel StateSpec MemBufModel MemBufSpec MemRootModel MemRootSpec EvmModel ProcessorModel RunSpec BlockchainModel BlockchainSpec BlockchainProofs BlockchainLemmas ChainBufferModel ChainBufferSpec ChainBufferProofs NodeModel NodeSpec NodeProofs.

Lemma work_above (g : blk content) h : b_difficulty g <= work g h.
Proof. unfold work. induction h as [|k h IH]; cbn [fold_right]; lia. Qed.
Lemma work_next (g : blk content) h k : work g (h ++ [k]) = work g h + b_difficulty (k_block k).
Proof. unfold work. rewrite fold_right_app. cbn [fold_right]. induction h as [|x h IH]; cbn [fold_right]; lia. Qed.
Lemma all_involved (g : blk content) h : Forall (fun k => In (k_block k) (involved g h)) h.
Proof. apply List.Forall_forall. intros k Hk. right. now apply in_map. Qed.

Section Node.
  Variables keccak code_of : bytes -> bytes.
  Variable pre_gas : N -> bytes -> N -> N.
  Variable pre_run : N -> bytes -> option bytes.
  Variable block_hash : blk content -> N -> bytes.
  Variable interp : message -> bytes -> prog.
  Variable fuel : nat.
  Variable receipts_root : list receipt -> bytes.
  Variable config : chain_config.
  Variable hash : blk content -> bytes.
  Variable pre : gmap (N * bytes) (blk content) -> blk content -> bool.
  Variable o : orders.
  Variable genesis : blk content.
  Variable past0 : N -> bool.
  Variable w0 : world.
  Variable m0 : membuf.
  Variable root : (N -> bool) * world -> bytes.
  Variables room calls : N.
  Notation rexec := (reference_exec keccak pre_gas pre_run block_hash interp fuel receipts_root config).
  Notation valid_chain := (valid_chain hash rexec genesis (past0, w0)).
  Notation executable := (executable keccak code_of pre_gas pre_run block_hash interp fuel receipts_root config hash genesis (past0, w0)).
  Notation rooted := (rooted keccak pre_gas pre_run block_hash interp fuel receipts_root config hash genesis (past0, w0) root).
  Notation mrun := (mem_run keccak pre_gas pre_run block_hash interp fuel receipts_root config o).
  Notation node_history := (n_history hash pre mrun (mem_undo o) (mem_state_root keccak o) genesis (m0, O)).
  Hypothesis Hg : b_number genesis = 0.
  Hypothesis Hk32 : hash_32 keccak.
  Hypothesis Ho : orders_ok o.
  Hypothesis Hm0 : mem_ok keccak code_of room m0 past0 w0.
  Hypothesis Hc0 : coded w0.

  Lemma rel0 n : N.of_nat (n * n) * calls <= room -> Rel keccak code_of calls (n * n) [] (past0, w0) (m0, O).
  Proof. intros Hr. split; [|split; [exact Hc0|exact I]]. eapply mem_ok_less; [|exact Hm0]. exact Hr. Qed.

  Lemma node_heaviest h c m i :
    no_collision hash (involved genesis h) -> no_overflow genesis h -> N.of_nat (length h * length h) * calls <= room ->
    executable (involved genesis h) calls -> rooted (involved genesis h) -> node_history h (c, (m, i)) ->
    exists cl d past w, valid_chain cl (past, w) d /\ c_canonical c = rev (map hash cl) /\ mem_ok keccak code_of 0 m past w
      /\ (forall b, In b cl -> accepted genesis h b)
      /\ (forall b, accepted genesis h b -> exists t s d', valid_chain (b :: t) s d' /\ d' <= d).
  Proof.
    intros Hu Hno Hr Hexe Hrt Hh. pose proof (work_above genesis h) as Hws.
    assert (Hgd : b_difficulty genesis < 2 ^ 256) by (destruct Hno; lia).
    destruct (history_lock hash rexec root pre genesis (past0, w0) (fun b => In b (involved genesis h)) (or_introl eq_refl) Hu Hg Hgd mrun (mem_undo o) (mem_state_root keccak o) (Rel keccak code_of calls)
      (r_weak keccak code_of pre genesis calls Hg)
      (r_exec keccak code_of pre_gas pre_run block_hash interp fuel receipts_root config hash pre o Ho genesis (past0, w0) (involved genesis h) calls Hexe (or_introl eq_refl) Hg Hgd)
      (r_undo keccak code_of o Ho calls)
      (r_root keccak code_of pre_gas pre_run block_hash interp fuel receipts_root config hash o Ho Hk32 genesis (past0, w0) root (involved genesis h) calls Hrt (or_introl eq_refl))
      (m0, O) h (c, (m, i)) (all_involved genesis h) Hno Hh 0%nat) as (ca & Hha & Ec & HR).
    { rewrite Nat.add_0_r. now apply rel0. }
    destruct (heaviest hash rexec root pre genesis (past0, w0) h ca Hg Hu Hno Hha) as (cl & d & H1 & H2 & H3 & H4).
    destruct (c_state ca) as [past w] eqn:Es. cbn [fst snd] in *. subst c. destruct HR as (Hm & _). exists cl, d, past, w. split; [exact H1|]. split; [exact H2|]. split; [exact Hm|]. split; [exact H3|exact H4].
  Qed.

  Lemma node_insertion h c m i b check :
    no_collision hash (b :: involved genesis h) -> no_overflow genesis (h ++ [mkCall b check true]) -> N.of_nat ((length h + 1) * (length h + 1)) * calls <= room ->
    executable (b :: involved genesis h) calls -> rooted (b :: involved genesis h) -> node_history h (c, (m, i)) -> submittable hash c b ->
    exists ok c' m' i' cl d past w,
      node_insert_block keccak pre_gas pre_run block_hash interp fuel receipts_root config hash pre o (c, (m, i)) b check = Done (ok, (c', (m', i')))
      /\ valid_chain cl (past, w) d /\ c_canonical c = rev (map hash cl) /\ mem_ok keccak code_of 0 m past w
      /\ (ok = false -> c_canonical c' = c_canonical c /\ mem_ok keccak code_of 0 m' past w)
      /\ (ok = true -> pre (c_blocks c) b = true /\ exists t past' w' db, valid_chain (b :: t) (past', w') db /\ (forall x, In x t -> accepted genesis h x) /\ (check = true -> is_world_root keccak w' (b_root b))
            /\ if d <? db then c_canonical c' = rev (map hash (b :: t)) /\ mem_ok keccak code_of 0 m' past' w'
               else c_canonical c' = c_canonical c /\ mem_ok keccak code_of 0 m' past w)
      /\ (forall p t s dp s', (forall x, In x (p :: t) -> accepted genesis h x) -> valid_chain (p :: t) s dp ->
            b_number b = b_number p + 1 -> b_parent b = hash p -> rexec s b = Some s' -> pre (c_blocks c) b = true -> ~ refused h b ->
            (check = true -> forall v x z s1 d1, b :: p :: t = v ++ x :: z -> z <> [] -> valid_chain (x :: z) s1 d1 -> root s1 = b_root x) ->
            ok = true).
  Proof.
    intros Hu Hno Hr Hexe Hrt Hh Hsub.
    assert (Hno1 : no_overflow genesis h).
    { destruct Hno as [A B]. rewrite app_length in A. rewrite work_next in B. cbn [length] in A. split; lia. }
    assert (Hgd : b_difficulty genesis < 2 ^ 256) by (pose proof (work_above genesis h); destruct Hno1; lia).
    assert (HUh : Forall (fun k => In (k_block k) (b :: involved genesis h)) h).
    { eapply List.Forall_impl; [|apply (all_involved genesis h)]. intros a Ha. right. exact Ha. }
    assert (Hgi : In genesis (b :: involved genesis h)) by (right; left; reflexivity).
    destruct (total_lock hash rexec root pre genesis (past0, w0) (fun x => In x (b :: involved genesis h)) Hgi Hu Hg Hgd mrun (mem_undo o) (mem_state_root keccak o) (Rel keccak code_of calls)
      (r_weak keccak code_of pre genesis calls Hg)
      (r_exec keccak code_of pre_gas pre_run block_hash interp fuel receipts_root config hash pre o Ho genesis (past0, w0) (b :: involved genesis h) calls Hexe Hgi Hg Hgd)
      (r_undo keccak code_of o Ho calls)
      (r_root keccak code_of pre_gas pre_run block_hash interp fuel receipts_root config hash o Ho Hk32 genesis (past0, w0) root (b :: involved genesis h) calls Hrt Hgi)
      (m0, O) h (c, (m, i)) b check HUh (or_introl eq_refl) Hno Hh Hsub) as (ca & ok & cb & [m' i'] & Hha & Ec & Hsa & Ei & En & HR & HR').
    { now apply rel0. }
    assert (Hu1 : no_collision hash (involved genesis h)) by (intros x y Hx Hy; apply Hu; now right).
    destruct (heaviest hash rexec root pre genesis (past0, w0) h ca Hg Hu1 Hno1 Hha) as (cl & d & H1 & H2 & H3 & H4).
    destruct (insertion hash rexec root pre genesis (past0, w0) h ca b check Hg Hu Hno Hha Hsa) as (ok' & cb' & Ei' & G1 & Gp & G2 & G3).
    rewrite Ei in Ei'. injection Ei' as <- <-. cbn [fst snd] in Ec, HR. subst c.
    destruct (c_state ca) as [past w] eqn:Es. exists ok, (erase cb), m', i', cl, d, past, w. split; [exact En|]. split; [exact H1|]. split; [exact H2|].
    split; [exact (proj1 HR)|]. split; [|split].
    - intros E. destruct (G1 E) as (A & B). split; [exact A|]. rewrite B in HR'. exact (proj1 HR').
    - intros E. destruct (G2 E cl d H1 H2 H3) as (t & [past' w'] & db & V & Va & Vr & K). split; [exact (Gp E)|]. exists t, past', w', db. split; [exact V|]. split; [exact Va|]. split.
      { intros Hc. rewrite <- (Vr Hc). refine (proj2 (proj2 (Hrt _ _ _ _ V _))). constructor; [now left|]. apply List.Forall_forall. intros x Hx. right. destruct (Va x Hx) as [->|(k & Hk & <- & _)]; [now left|]. right. now apply in_map. }
      destruct (d <? db).
      + destruct K as (K1 & K2). split; [exact K1|]. rewrite K2 in HR'. exact (proj1 HR').
      + destruct K as (K1 & K2). split; [exact K1|]. rewrite K2 in HR'. exact (proj1 HR').
    - exact G3.
  Qed.
End Node.
