(** Model of the state part of core/silkworm/state/memory_buffer.* and of IntraBlockState::write_to_db. *)
From stdpp Require Import gmap.
From Verif Require Import Base RlpModel TypesModel StateModel.

(** memory_buffer.hpp:89-98, 111-114. The nested maps address -> incarnation -> location -> value are one map from
    triples; the block tables (headers, bodies, difficulties, canonical hashes) are in BlockchainModel. *)
Record membuf := mkMem {
  m_accounts : gmap N account;
  m_code : gmap bytes bytes;
  m_prev : gmap N N;
  m_storage : gmap (N * N * N) N;
  m_acc_changes : gmap N (gmap N (option account));
  m_st_changes : gmap N (gmap (N * N * N) N);
  m_block : N
}.
Definition mem_empty : membuf := mkMem ∅ ∅ ∅ ∅ ∅ ∅ 0.

(** memory_buffer.cpp:29-68 *)
Definition mem_reader (m : membuf) : db_reader :=
  mkDb (fun a => m_accounts m !! a) (fun h => default [] (m_code m !! h)) (fun a i k => default 0 (m_storage m !! (a, i, k)))
    (fun a => default 0 (m_prev m !! a)).

(** memory_buffer.cpp:154-158 *)
Definition begin_block (m : membuf) (n : N) : membuf :=
  mkMem (m_accounts m) (m_code m) (m_prev m) (m_storage m) (delete n (m_acc_changes m)) (delete n (m_st_changes m)) n.

(** memory_buffer.cpp:160-172 *)
Definition update_account (m : membuf) (a : N) (initial current : option account) : membuf :=
  let changes := <[m_block m := <[a := initial]> (default ∅ (m_acc_changes m !! m_block m))]> (m_acc_changes m) in
  match current with
  | Some c => mkMem (<[a := c]> (m_accounts m)) (m_code m) (m_prev m) (m_storage m) changes (m_st_changes m) (m_block m)
  | None =>
    let prev := match initial with Some i => <[a := a_incarnation i]> (m_prev m) | None => m_prev m end in
    mkMem (delete a (m_accounts m)) (m_code m) prev (m_storage m) changes (m_st_changes m) (m_block m)
  end.

(** memory_buffer.cpp:174-176 *)
Definition update_account_code (m : membuf) (h code : bytes) : membuf :=
  mkMem (m_accounts m) (<[h := code]> (m_code m)) (m_prev m) (m_storage m) (m_acc_changes m) (m_st_changes m) (m_block m).

Definition put (st : gmap (N * N * N) N) (key : N * N * N) (v : N) : gmap (N * N * N) N := if v =? 0 then delete key st else <[key := v]> st.

(** memory_buffer.cpp:178-187 *)
Definition update_storage (m : membuf) (a i k initial current : N) : membuf :=
  let changes := <[m_block m := <[(a, i, k) := initial]> (default ∅ (m_st_changes m !! m_block m))]> (m_st_changes m) in
  mkMem (m_accounts m) (m_code m) (m_prev m) (put (m_storage m) (a, i, k) current) (m_acc_changes m) changes (m_block m).

(** intra_block_state.cpp:293-320. [sord]: the order in which the hash maps storage_ and, per address, storage.committed
    are visited; [oord]: the order for objects_. code_[hash] is the empty string when absent. *)
Definition write_slot (s : ibs) (a i : N) (m : membuf) (k : N) : membuf :=
  match st_committed (storage_of s a) !! k with
  | Some cv => update_storage m a i k (cv_initial cv) (cv_original cv)
  | None => m
  end.
Definition write_storage (s : ibs) (m : membuf) (x : N * list N) : membuf :=
  match objects s !! fst x with
  | None => m
  | Some o => match o_current o with None => m | Some c => fold_left (write_slot s (fst x) (a_incarnation c)) (snd x) m end
  end.
Definition write_account (s : ibs) (m : membuf) (a : N) : membuf :=
  match objects s !! a with
  | None => m
  | Some o =>
    let m := update_account m a (o_initial o) (o_current o) in
    match o_current o with
    | None => m
    | Some c =>
      if negb (bytes_eqb (a_code_hash c) kEmptyHash)
         && match o_initial o with Some i => negb (a_incarnation i =? a_incarnation c) | None => true end
      then update_account_code m (a_code_hash c) (default [] (codes s !! a_code_hash c))
      else m
    end
  end.
Definition write_to_db (s : ibs) (m : membuf) (n : N) (sord : list (N * list N)) (oord : list N) : membuf :=
  let m := begin_block m n in
  let m := fold_left (write_storage s) sord m in
  fold_left (write_account s) oord m.

(** Each key of the hash maps visited once. *)
Definition order_ok (s : ibs) (sord : list (N * list N)) (oord : list N) : Prop :=
  map fst sord ≡ₚ elements (dom (storages s))
  /\ (forall a ks, (a, ks) ∈ sord -> ks ≡ₚ elements (dom (st_committed (storage_of s a))))
  /\ oord ≡ₚ elements (dom (objects s)).

(** memory_buffer.cpp:189-209; [aord], [sord]: the order in which the change maps are visited. *)
Definition unwind_account (n : N) (m : membuf) (a : N) : membuf :=
  match m_acc_changes m !! n ≫= (fun c => c !! a) with
  | Some (Some acc) => mkMem (<[a := acc]> (m_accounts m)) (m_code m) (m_prev m) (m_storage m) (m_acc_changes m) (m_st_changes m) (m_block m)
  | Some None => mkMem (delete a (m_accounts m)) (m_code m) (m_prev m) (m_storage m) (m_acc_changes m) (m_st_changes m) (m_block m)
  | None => m
  end.
Definition unwind_slot (n : N) (m : membuf) (key : N * N * N) : membuf :=
  match m_st_changes m !! n ≫= (fun c => c !! key) with
  | Some v => mkMem (m_accounts m) (m_code m) (m_prev m) (put (m_storage m) key v) (m_acc_changes m) (m_st_changes m) (m_block m)
  | None => m
  end.
Definition unwind_state_changes (m : membuf) (n : N) (aord : list N) (sord : list (N * N * N)) : membuf :=
  fold_left (unwind_slot n) sord (fold_left (unwind_account n) aord m).
Definition unwind_order_ok (m : membuf) (n : N) (aord : list N) (sord : list (N * N * N)) : Prop :=
  aord ≡ₚ elements (dom (default ∅ (m_acc_changes m !! n))) /\ sord ≡ₚ elements (dom (default ∅ (m_st_changes m !! n))).
