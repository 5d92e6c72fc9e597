(** Model of core/silkworm/common/lru_cache.hpp and core/silkworm/execution/analysis_cache.cpp. *)
From Verif Require Import Base.

Section Lru.
  Context {K V : Type}.
  Variable key_dec : forall a b : K, {a = b} + {a <> b}.

  (** lru_cache.hpp:87-89: the list holds (key, value) nodes, most recent first; list iterators (stable node
      addresses) are represented by node ids; the map goes from keys to ids. [next] is the next fresh id. *)
  Record lru := mkLru { items : list (nat * (K * V)); index : list (K * nat); next : nat; max_size : nat }.

  (** lru_cache.hpp:47 *)
  Definition lru_new (n : nat) : lru := mkLru [] [] 0 n.

  (** std::unordered_map::find / erase *)
  Fixpoint index_find (k : K) (m : list (K * nat)) : option nat :=
    match m with [] => None | (k', i) :: t => if key_dec k k' then Some i else index_find k t end.
  Definition index_erase (k : K) (m : list (K * nat)) : list (K * nat) :=
    filter (fun e => if key_dec k (fst e) then false else true) m.
  (** std::list::erase of the node an iterator points to *)
  Definition list_erase (i : nat) (l : list (nat * (K * V))) : list (nat * (K * V)) :=
    filter (fun e => negb (fst e =? i)%nat) l.
  Fixpoint node (i : nat) (l : list (nat * (K * V))) : option (K * V) :=
    match l with [] => None | (j, kv) :: t => if (j =? i)%nat then Some kv else node i t end.

  (** lru_cache.hpp:49-65. None: decrementing end() of an empty list (undefined). *)
  Definition lru_put (c : lru) (k : K) (v : V) : option lru :=
    let it := index_find k (index c) in
    let l := (next c, (k, v)) :: items c in
    let '(l, m) :=
      match it with
      | Some i => (list_erase i l, index_erase k (index c))
      | None => (l, index c)
      end in
    let m := (k, next c) :: m in
    if (max_size c <? length m)%nat then
      match rev l with
      | [] => None
      | (_, (lk, _)) :: _ => Some (mkLru (removelast l) (index_erase lk m) (S (next c)) (max_size c))
      end
    else Some (mkLru l m (S (next c)) (max_size c)).

  (** lru_cache.hpp:67-75: result value (nullptr = None) and new cache. None: dangling iterator. *)
  Definition lru_get (c : lru) (k : K) : option (option V * lru) :=
    match index_find k (index c) with
    | None => Some (None, c)
    | Some i =>
      match node i (items c) with
      | None => None
      | Some kv => Some (Some (snd kv), mkLru ((i, kv) :: list_erase i (items c)) (index c) (next c) (max_size c))
      end
    end.

  (** lru_cache.hpp:77 *)
  Definition lru_size (c : lru) : nat := length (index c).

  (** lru_cache.hpp:79-82 *)
  Definition lru_clear (c : lru) : lru := mkLru [] [] (next c) (max_size c).

  (** Operation histories, executed oldest first; the trace records observable events, newest first. *)
  Inductive op := Put (k : K) (v : V) | Get (k : K) | Clear.
  Inductive event := EPut (k : K) (v : V) | EHit (k : K) (v : V) | EMiss (k : K) | EClear.
  Definition step (s : lru * list event) (o : op) : option (lru * list event) :=
    let '(c, tr) := s in
    match o with
    | Put k v => match lru_put c k v with Some c' => Some (c', EPut k v :: tr) | None => None end
    | Get k => match lru_get c k with
               | Some (Some v, c') => Some (c', EHit k v :: tr)
               | Some (None, c') => Some (c', EMiss k :: tr)
               | None => None
               end
    | Clear => Some (lru_clear c, EClear :: tr)
    end.
  Fixpoint run (s : lru * list event) (ops : list op) : option (lru * list event) :=
    match ops with [] => Some s | o :: t => match step s o with Some s' => run s' t | None => None end end.

  (** ** AnalysisCache; [revision_] starts as EVMC_MAX_REVISION (= 10). *)
  Record acache := mkACache { ac_cache : lru; ac_revision : N }.
  (** analysis_cache.hpp:37, 57 *)
  Definition acache_new (n : nat) : acache := mkACache (lru_new n) 10.
  (** analysis_cache.cpp:26-34 *)
  Definition acache_get (a : acache) (k : K) (rev : N) : option (option V * acache) :=
    if ac_revision a =? rev then
      match lru_get (ac_cache a) k with
      | Some (r, c) => Some (r, mkACache c (ac_revision a))
      | None => None
      end
    else Some (None, a).
  (** analysis_cache.cpp:36-45 *)
  Definition acache_put (a : acache) (k : K) (v : V) (rev : N) : option acache :=
    let c := if negb (ac_revision a =? rev) then lru_clear (ac_cache a) else ac_cache a in
    match lru_put c k v with Some c => Some (mkACache c rev) | None => None end.

  Inductive aop := APut (k : K) (v : V) (rev : N) | AGet (k : K) (rev : N).
  Definition astep (a : acache) (o : aop) : option acache :=
    match o with
    | APut k v r => acache_put a k v r
    | AGet k r => match acache_get a k r with Some (_, a') => Some a' | None => None end
    end.
  Fixpoint arun (a : acache) (ops : list aop) : option acache :=
    match ops with [] => Some a | o :: t => match astep a o with Some a' => arun a' t | None => None end end.
End Lru.
Arguments lru : clear implicits.
Arguments op : clear implicits.
Arguments event : clear implicits.
Arguments acache : clear implicits.
Arguments aop : clear implicits.
