(** Specification of a bounded recency cache, by the observable trace (newest event first). *)
From Verif Require Import Base LruModel.

Section Spec.
  Context {K V : Type}.
  Variable key_dec : forall a b : K, {a = b} + {a <> b}.

  (** Keys used (put, or found by get) since the last clear, most recently used first, without repetition. *)
  Fixpoint recency (tr : list (event K V)) : list K :=
    match tr with
    | [] => []
    | EClear :: _ => []
    | EMiss _ :: t => recency t
    | EPut k _ :: t | EHit k _ :: t => k :: remove key_dec k (recency t)
    end.

  (** The value of the last put of [k] since the last clear. *)
  Fixpoint last_put (tr : list (event K V)) (k : K) : option V :=
    match tr with
    | [] => None
    | EClear :: _ => None
    | EPut k' v :: t => if key_dec k k' then Some v else last_put t k
    | _ :: t => last_put t k
    end.

  (** What a get of [k] must return: the last value put, if [k] is one of the [cap] most recently used keys. *)
  Definition expected (cap : nat) (tr : list (event K V)) (k : K) : option V :=
    if in_dec key_dec k (firstn cap (recency tr)) then last_put tr k else None.
End Spec.
