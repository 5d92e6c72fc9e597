(** Specifications for the database layer. *)
From Verif Require Import Base RlpSpec RlpModel TxModel TxSpec BlockModel BlockSpec DbTable DbModel.

(** Every table is in the order of its keys. *)
Definition wf_db (d : database) : Prop := forall t, if multi t then dup_ordered (d t) else ordered (d t).

(** ** Stages *)
Inductive stage_op := SetProgress (name : bytes) (n : N) | SetUnwind (name : bytes) (n : N) | ClearUnwind (name : bytes).
Definition op_name (o : stage_op) : bytes := match o with SetProgress s _ => s | SetUnwind s _ => s | ClearUnwind s => s end.
Definition op_fits (o : stage_op) : Prop := match o with SetProgress _ n => n < 2 ^ 64 | SetUnwind _ n => n < 2 ^ 64 | ClearUnwind _ => True end.
Definition stage_step (d : database) (o : stage_op) : out database :=
  match o with SetProgress s n => set_stage_progress d s n | SetUnwind s n => set_stage_unwind d s n | ClearUnwind s => clear_stage_unwind d s end.
Fixpoint stage_run (d : database) (ops : list stage_op) : out database :=
  match ops with [] => Done d | o :: r => match stage_step d o with Done d' => stage_run d' r | Throws => Throws | Undefined => Undefined end end.
(** What was last set for a stage, in a history read from the oldest to the newest. *)
Fixpoint last_progress (ops : list stage_op) (name : bytes) (before : N) : N :=
  match ops with
  | [] => before
  | SetProgress s n :: r => last_progress r name (if bytes_eqb s name then n else before)
  | _ :: r => last_progress r name before
  end.
Fixpoint last_unwind (ops : list stage_op) (name : bytes) (before : N) : N :=
  match ops with
  | [] => before
  | SetUnwind s n :: r => last_unwind r name (if bytes_eqb s name then n else before)
  | ClearUnwind s :: r => last_unwind r name (if bytes_eqb s name then 0 else before)
  | SetProgress _ _ :: r => last_unwind r name before
  end.

(** ** Versions: compared by major, then minor, then patch. *)
Definition version_fits (v : version) : Prop := vMajor v < 2 ^ 32 /\ vMinor v < 2 ^ 32 /\ vPatch v < 2 ^ 32.
Definition version_lt (a b : version) : Prop :=
  vMajor a < vMajor b \/ (vMajor a = vMajor b /\ (vMinor a < vMinor b \/ (vMinor a = vMinor b /\ vPatch a < vPatch b))).

(** ** Blocks *)
Definition stored_item (b : stored_body) : item := Lst [Num (sb_base b); Num (sb_count b); Lst (map header_item (sb_ommers b))].
Definition wf_stored (b : stored_body) : Prop := sb_base b < 2 ^ 64 /\ sb_count b < 2 ^ 64 /\ Forall wf_header (sb_ommers b) /\ small_item (stored_item b).
(** The transaction table is keyed by 8-byte ids. *)
Definition keys8 (t : table) : Prop := Forall (fun e => exists id, id < 2 ^ 64 /\ fst e = be_fixed 8 id) t.
(** The transaction with its sender filled in. *)
Definition sent_by (t : transaction) (a : bytes) : transaction :=
  mkTx (tx_typ t) (tx_nonce t) (tx_max_priority_fee t) (tx_max_fee t) (tx_gas_limit t) (tx_to t) (tx_value t)
       (tx_data t) (tx_odd_y_parity t) (tx_chain_id t) (tx_r t) (tx_s t) (tx_access_list t) (Some a).
(** A block is in the database: canonical hash, header, body record, one record per transaction, and its senders. *)
Record holds_block (d : database) (n : N) (hash : bytes) (b : block) (base : N) (senders : list bytes) : Prop := {
  hb_hash : List.length hash = 32%nat;
  hb_canonical : lookup (d kCanonicalHashes) (be_fixed 8 n) = Some hash;
  hb_header : lookup (d kHeaders) (be_fixed 8 n ++ hash) = Some (RLP (header_item (bk_header b)));
  hb_body : lookup (d kBlockBodies) (be_fixed 8 n ++ hash) = Some (RLP (stored_item (mkStored base (N.of_nat (List.length (bk_transactions b))) (bk_ommers b))));
  hb_txs : forall i t, nth_error (bk_transactions b) i = Some t -> lookup (d kEthTx) (be_fixed 8 (base + N.of_nat i)) = Some (wire_tx t);
  hb_senders : (senders = [] /\ lookup (d kSenders) (be_fixed 8 n ++ hash) = None) \/ lookup (d kSenders) (be_fixed 8 n ++ hash) = Some (concat senders)
}.
Record wf_holding (b : block) (base : N) (senders : list bytes) : Prop := {
  wh_header : wf_header (bk_header b) /\ small_item (header_item (bk_header b));
  wh_body : wf_stored (mkStored base (N.of_nat (List.length (bk_transactions b))) (bk_ommers b));
  wh_txs : Forall (fun t => wf_tx t /\ representable t /\ small_tx t) (bk_transactions b);
  wh_senders : Forall (fun a => List.length a = 20%nat) senders;
  wh_range : base + N.of_nat (List.length (bk_transactions b)) < 2 ^ 64
}.
