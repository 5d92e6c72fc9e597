(** Specification for the C interface: what a history of calls leaves behind, read off the history itself. *)
From stdpp Require Import gmap.
From Verif Require Import Base TypesModel TypesSpec StateRootSpec.

(** The calls that change a state. *)
Inductive call :=
| SetAccount (address : bytes) (acc : option account)
| SetCode (address : bytes) (acc : account) (code : bytes)
| SetStorage (address : bytes) (acc : account) (location value : bytes).

(** The last thing said about something: [f] picks out the calls about it. *)
Fixpoint last_of {A} (f : call -> option A) (calls : list call) : option A :=
  match calls with [] => None | c :: rest => match last_of f rest with Some x => Some x | None => f c end end.

(** The number a location or a value stands for: big-endian, the first 32 bytes if there are more. *)
Definition word (b : bytes) : N := be_to_N (firstn 32 b).

Definition account_at (a : N) (c : call) : option (option account) :=
  match c with SetAccount p acc => if be_to_N p =? a then Some acc else None | _ => None end.
Definition code_at (h : bytes) (c : call) : option bytes :=
  match c with SetCode _ acc code => if bytes_eqb (a_code_hash acc) h then Some code else None | _ => None end.
Definition slot_at (a i l : N) (c : call) : option N :=
  match c with SetStorage p acc location value => if (be_to_N p =? a) && (a_incarnation acc =? i) && (word location =? l) then Some (word value) else None | _ => None end.

(** The state a history leaves: the last account and the last word of each slot. *)
Definition said (calls : list call) : state :=
  mkState (fun a => default None (last_of (account_at a) calls)) (fun a i l => default 0 (last_of (slot_at a i l) calls)).
Definition code_said (calls : list call) (h : bytes) : bytes := default [] (last_of (code_at h) calls).

(** What the types of the interface guarantee: addresses of 20 bytes, accounts and bytes in range. *)
Definition call_ok (c : call) : Prop :=
  match c with
  | SetAccount p acc => length p = 20%nat /\ wf_bytes p /\ match acc with Some x => wf_account x | None => True end
  | SetCode p acc code => wf_account acc
  | SetStorage p acc location value => length p = 20%nat /\ wf_bytes p /\ wf_account acc /\ wf_bytes location /\ wf_bytes value
  end.

(** [l] lists the things with property [P], each once. *)
Definition lists {A} (l : list A) (P : A -> Prop) : Prop := base.NoDup l /\ forall x, In x l <-> P x.

(** The calls that build a chain configuration. *)
Inductive setting := SetFork (rev block : N) | SetMuirGlacier (block : N) | SetDao (block : N).
Fixpoint last_setting {A} (f : setting -> option A) (l : list setting) : option A :=
  match l with [] => None | c :: rest => match last_setting f rest with Some x => Some x | None => f c end end.
Definition fork_at (r : N) (s : setting) : option N := match s with SetFork rev b => if rev =? r then Some b else None | _ => None end.
Definition muir_at (s : setting) : option N := match s with SetMuirGlacier b => Some b | _ => None end.
Definition dao_at (s : setting) : option N := match s with SetDao b => Some b | _ => None end.

(** Accounts as [new_account] makes them, possibly with another balance and code hash. *)
Definition made (c : call) : Prop := match c with SetAccount _ (Some x) => a_incarnation x = 0 | _ => True end.
(** Every code hash of the state is the empty one or that of a code given to the state. *)
Definition codes_given (keccak code_of : bytes -> bytes) (calls : list call) : Prop :=
  forall a c, accounts (said calls) a = Some c -> keccak (code_of (a_code_hash c)) = a_code_hash c
    /\ (a_code_hash c <> kEmptyHash -> code_said calls (a_code_hash c) = code_of (a_code_hash c)).
