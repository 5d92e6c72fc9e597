(** Specification of the execution of blocks in batches. *)
From stdpp Require Import gmap.
From Verif Require Import Base RlpModel TypesModel TypesSpec BlockModel UtilModel ChainModel DbTable DbModel DbSpec BufferModel BufferSpec ExecModel.

(** The state after some updates. *)
Definition after (w : view) (ops : list buf_op) : view :=
  mkView (fun a => last_account ops a (v_account w a)) (fun a i l => last_storage ops a i l (v_storage w a i l)) (fun h => last_code ops h (v_code w h))
    (fun a => last_destroyed ops a (v_previous w a)) (v_header w).
(** Two states that agree on all addresses, incarnations and locations there are. *)
Definition view_eq (w w' : view) : Prop :=
  (forall a, a < 2 ^ 160 -> v_account w a = v_account w' a)
  /\ (forall a i l, a < 2 ^ 160 -> i < 2 ^ 64 -> l < 2 ^ 256 -> v_storage w a i l = v_storage w' a i l)
  /\ (forall h, v_code w h = v_code w' h) /\ (forall a, a < 2 ^ 160 -> v_previous w a = v_previous w' a) /\ (forall n h, v_header w n h = v_header w' n h).
(** Each update names the value that it replaces. *)
Definition honest_view (w : view) (ops : list buf_op) : Prop :=
  forall pre o post, ops = pre ++ o :: post ->
    match o with
    | OAccount a i _ => v_account (after w pre) a = Done i
    | OStorage a inc l i _ => v_storage (after w pre) a inc l = Done i
    | _ => True
    end.
(** The state that a database holds. *)
Definition state_of (bm_read : bytes -> bitmap) (d : database) : view :=
  mkView (fun a => read_account bm_read d a None) (fun a i l => read_storage bm_read d a i l None) (fun h => default [] (read_code d h))
    (fun a => obind (read_previous_incarnation d a None) (fun r => Done (default 0 r))) (read_header d).

Section Spec.
  Variable exec : chain_config -> view -> block -> exec_result.
  (** Executing blocks n, n+1, ..., m-1 of the chain in d, each once and in order, turns the state w into w'. *)
  Inductive executes (c : chain_config) (d : database) : N -> view -> N -> view -> Prop :=
  | ex_none n w : executes c d n w n w
  | ex_block n w blk h ops rs m w' : read_block d n true = Done (Some (blk, h)) -> exec c w blk = Valid ops rs -> executes c d (n + 1) (after w ops) m w' ->
      executes c d n w m w'.
  (** Block execution depends on the state only, and its updates are honest and of the right widths. *)
  Record sound_exec : Prop := {
    se_reads : forall c w w' blk, view_eq w w' -> exec c w blk = exec c w' blk;
    se_updates : forall c w blk ops rs, exec c w blk = Valid ops rs -> honest_view w ops /\ Forall fits_op ops
  }.
  (** What is needed so that the write-out loses nothing (see C46): each contract has one slot, contracts have code, and code comes with a change
      of the account. *)
  Record tame_exec (slot_of : N -> N -> N) : Prop := {
    te_slot : forall c w blk ops rs a i l x y, exec c w blk = Valid ops rs -> In (OStorage a i l x y) ops -> l = slot_of a i;
    te_code : forall c w blk ops rs a x y, exec c w blk = Valid ops rs -> In (OAccount a x (Some y)) ops -> 0 < a_incarnation y -> a_code_hash y <> kEmptyHash;
    te_account : forall c w blk ops rs a i h co, exec c w blk = Valid ops rs -> In (OCode a i h co) ops -> exists x y, In (OAccount a x y) ops /\ x <> y
  }.
  (** The same of a database. *)
  Record tame_db (slot_of : N -> N -> N) (d : database) : Prop := {
    td_wf : wf_db d;
    td_account : one_per_address (d kPlainState);
    td_slot : forall a i v, a < 2 ^ 160 -> i < 2 ^ 64 -> In (be_fixed 20 a ++ be_fixed 8 i, v) (d kPlainState) -> exists s, v = be_fixed 32 (slot_of a i) ++ s;
    td_one : forall a i v v', a < 2 ^ 160 -> i < 2 ^ 64 -> In (be_fixed 20 a ++ be_fixed 8 i, v) (d kPlainState) -> In (be_fixed 20 a ++ be_fixed 8 i, v') (d kPlainState) -> v = v'
  }.
End Spec.
