(** Specification for message calls: what the interpreter must respect, what "nothing happened" means, and what
    "the value moved" means. *)
From stdpp Require Import gmap.
From Coq Require Import ZArith.
From Verif Require Import Base TypesModel StateModel EvmModel.

(** ** The EVM specification seen from the host.
    [contract strict self gas depth p]: program [p], run for account [self] with [gas] gas at call depth [depth],
    - writes storage of, and destroys, only [self];
    - makes calls in the name of [self], at the next depth, at most 1024, with non-negative gas;
    - returns between 0 and [gas] gas, provided its own calls returned no more gas than they were given;
    whatever the host answers. With [strict] it does not self-destruct naming itself as the beneficiary. *)
Fixpoint contract (strict : bool) (self : N) (gas : Z) (depth : N) (p : prog) : Prop :=
  match p with
  | PDone r => (0 <= r_gas r <= gas)%Z
  | PAccountExists _ k => forall x, contract strict self gas depth (k x)
  | PGetStorage _ _ k => forall x, contract strict self gas depth (k x)
  | PSetStorage a _ _ k => a = self /\ forall x, contract strict self gas depth (k x)
  | PGetBalance _ k => forall x, contract strict self gas depth (k x)
  | PGetCodeSize _ k => forall x, contract strict self gas depth (k x)
  | PGetCodeHash _ k => forall x, contract strict self gas depth (k x)
  | PCopyCode _ _ _ k => forall x, contract strict self gas depth (k x)
  | PSelfdestruct a b k => a = self /\ (strict = true -> b <> a) /\ contract strict self gas depth k
  | PCall m k =>
    (m_kind m <> KDelegatecall -> m_sender m = self) /\ m_depth m = depth + 1 /\ m_depth m <= 1024 /\ (0 <= m_gas m)%Z
    /\ forall r, (0 <= r_gas r <= m_gas m)%Z -> contract strict self gas depth (k r)
  | PGetBlockHash _ k => forall x, contract strict self gas depth (k x)
  | PEmitLog _ k => contract strict self gas depth k
  | PAccessAccount _ k => forall x, contract strict self gas depth (k x)
  | PAccessStorage _ _ k => forall x, contract strict self gas depth (k x)
  end.
(** The interpreter respects it for every message and code. *)
Definition lawful (strict : bool) (interp : message -> bytes -> prog) : Prop :=
  forall m code, (0 <= m_gas m)%Z -> m_depth m <= 1024 -> contract strict (m_destination m) (m_gas m) (m_depth m) (interp m code).

Section Spec.
  Variable db : db_reader.
  Definition balance_of (s : ibs) (a : N) : N := fst (get_balance db s a).
  Definition nonce_of (s : ibs) (a : N) : N := fst (get_nonce db s a).
  Definition code_hash_of (s : ibs) (a : N) : bytes := fst (get_code_hash db s a).
  Definition existing (s : ibs) (a : N) : bool := fst (exists_ db s a).

  (** Every getter, the logs, the refund counter, the self-destructs and the access lists of [s'] are those of [s]
      (the precompiled contract 3 may have become touched: the exception of EIP-161 clients). *)
  Record unchanged (s s' : ibs) : Prop := {
    un_exists : forall a, existing s' a = existing s a;
    un_balance : forall a, balance_of s' a = balance_of s a;
    un_nonce : forall a, nonce_of s' a = nonce_of s a;
    un_code_hash : forall a, code_hash_of s' a = code_hash_of s a;
    un_current : forall a k, fst (get_current_storage db s' a k) = fst (get_current_storage db s a k);
    un_original : forall a k, fst (get_original_storage db s' a k) = fst (get_original_storage db s a k);
    un_logs : logs s' = logs s;
    un_refund : refund s' = refund s;
    un_sui : self_destructs s' = self_destructs s;
    un_touched : forall a, a <> 3 -> a ∈ touched s' <-> a ∈ touched s;
    un_addresses : accessed_addresses s' = accessed_addresses s;
    un_keys : accessed_keys s' = accessed_keys s
  }.

  (** Balances after [v] wei went from [a] to [b]. *)
  Definition moved (f : N -> N) (a b v : N) : N -> N :=
    fun x => if a =? b then f x else if x =? a then f x - v else if x =? b then f x + v else f x.

  Fixpoint sum (f : N -> N) (l : list N) : N := match l with [] => 0 | a :: t => f a + sum f t end.
  (** [total f t]: the balances [f] add up to [t]. *)
  Definition total (f : N -> N) (t : N) : Prop := exists l, List.NoDup l /\ (forall a, ~ In a l -> f a = 0) /\ sum f l = t.
End Spec.

Section Frames.
  Variable keccak : bytes -> bytes.
  Variable db : db_reader.
  (** DELEGATECALL and CALLCODE are issued by an account that is running, hence exists. *)
  Definition valid_caller (stack : list N) (m : message) (s : ibs) : Prop :=
    match m_kind m with
    | KCallcode => existing db s (m_sender m) = true
    | KDelegatecall => match stack with a :: _ => existing db s a = true | [] => False end
    | _ => True
    end.
  Definition is_creation (m : message) : bool := match m_kind m with KCreate | KCreate2 => true | _ => false end.
  (** Address of the contract a creation makes (Yellow Paper (77)-(79), EIP-1014). *)
  Definition new_address (m : message) (s : ibs) : N :=
    match m_kind m with
    | KCreate2 => create2_address keccak (m_sender m) (m_salt m) (keccak (m_input m))
    | _ => create_address keccak (m_sender m) (nonce_of db s (m_sender m))
    end.
  (** The effects a creation keeps although it fails: the nonce of the sender is incremented (EIP-161) and the address
      of the contract is warm (EIP-2929). *)
  Definition creation_attempted (m : message) (s : ibs) : ibs :=
    snd (access_account (set_nonce db s (m_sender m) ((nonce_of db s (m_sender m) + 1) mod 2 ^ 64)) (new_address m s)).
  (** The same account data except for balances. *)
  Record only_balances (s s' : ibs) : Prop := {
    ob_nonce : forall a, nonce_of db s' a = nonce_of db s a;
    ob_code_hash : forall a, code_hash_of db s' a = code_hash_of db s a;
    ob_current : forall a k, existing db s a = true -> fst (get_current_storage db s' a k) = fst (get_current_storage db s a k);
    ob_original : forall a k, existing db s a = true -> fst (get_original_storage db s' a k) = fst (get_original_storage db s a k);
    ob_logs : logs s' = logs s;
    ob_refund : refund s' = refund s;
    ob_sui : self_destructs s' = self_destructs s;
    ob_addresses : accessed_addresses s' = accessed_addresses s;
    ob_keys : accessed_keys s' = accessed_keys s
  }.
End Frames.
