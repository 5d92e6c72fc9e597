(** Model of the Keccak implementation: ethash/ethash/keccak.cpp.

    A [uint64_t] is an [N] below 2^64. A [uint64_t state[25]] is a list of 25 of them. An access outside
    of an array is the outcome [None] (undefined behaviour in C++). The host is little-endian, so
    [le::uint64] is the identity (ethash/ethash/hash_types.hpp:54-66). *)
From Verif Require Import Base.

Infix "^^" := N.lxor (at level 50, left associativity).

(** [~x] on a [uint64_t]. *)
Definition not64 (x : N) : N := N.ldiff (N.ones 64) x.

(** keccak.cpp:27-30, [rotl_64]. [s] is an [unsigned], so that [-s] is taken modulo 2^32. *)
Definition rotl_64 (x s : N) : N :=
  N.lor (N.shiftl x s mod 2 ^ 64) (N.shiftr x (N.land ((2 ^ 32 - s) mod 2 ^ 32) 63)).

(** keccak.cpp:32-37, [round_constants]. *)
Definition round_constants : list N :=
  [0x0000000000000001; 0x0000000000008082; 0x800000000000808a; 0x8000000080008000; 0x000000000000808b;
   0x0000000080000001; 0x8000000080008081; 0x8000000000008009; 0x000000000000008a; 0x0000000000000088;
   0x0000000080008009; 0x000000008000000a; 0x000000008000808b; 0x800000000000008b; 0x8000000000008089;
   0x8000000000008003; 0x8000000000008002; 0x8000000000000080; 0x000000000000800a; 0x800000008000000a;
   0x8000000080008081; 0x8000000000008080; 0x0000000080000001; 0x8000000080008008].
Definition round_constant (n : nat) : N := nth n round_constants 0.

(** keccak.cpp:93-160: round [n], from the variables Axx to the variables Exx. A list of another length
    than 25 cannot occur; it is returned unchanged. *)
Definition round_A_E (n : nat) (state : list N) : list N :=
  match state with
  | [Aba; Abe; Abi; Abo; Abu;
     Aga; Age; Agi; Ago; Agu; Aka; Ake; Aki; Ako; Aku;
     Ama; Ame; Ami; Amo; Amu; Asa; Ase; Asi; Aso; Asu] =>
    let Ba := (((Aba ^^ Aga) ^^ Aka) ^^ Ama) ^^ Asa in
    let Be := (((Abe ^^ Age) ^^ Ake) ^^ Ame) ^^ Ase in
    let Bi := (((Abi ^^ Agi) ^^ Aki) ^^ Ami) ^^ Asi in
    let Bo := (((Abo ^^ Ago) ^^ Ako) ^^ Amo) ^^ Aso in
    let Bu := (((Abu ^^ Agu) ^^ Aku) ^^ Amu) ^^ Asu in
    let Da := Bu ^^ (rotl_64 Be 1) in
    let De := Ba ^^ (rotl_64 Bi 1) in
    let Di := Be ^^ (rotl_64 Bo 1) in
    let Do := Bi ^^ (rotl_64 Bu 1) in
    let Du := Bo ^^ (rotl_64 Ba 1) in
    let Ba := Aba ^^ Da in
    let Be := rotl_64 (Age ^^ De) 44 in
    let Bi := rotl_64 (Aki ^^ Di) 43 in
    let Bo := rotl_64 (Amo ^^ Do) 21 in
    let Bu := rotl_64 (Asu ^^ Du) 14 in
    let Eba := (Ba ^^ (N.land (not64 Be) Bi)) ^^ (round_constant n) in
    let Ebe := Be ^^ (N.land (not64 Bi) Bo) in
    let Ebi := Bi ^^ (N.land (not64 Bo) Bu) in
    let Ebo := Bo ^^ (N.land (not64 Bu) Ba) in
    let Ebu := Bu ^^ (N.land (not64 Ba) Be) in
    let Ba := rotl_64 (Abo ^^ Do) 28 in
    let Be := rotl_64 (Agu ^^ Du) 20 in
    let Bi := rotl_64 (Aka ^^ Da) 3 in
    let Bo := rotl_64 (Ame ^^ De) 45 in
    let Bu := rotl_64 (Asi ^^ Di) 61 in
    let Ega := Ba ^^ (N.land (not64 Be) Bi) in
    let Ege := Be ^^ (N.land (not64 Bi) Bo) in
    let Egi := Bi ^^ (N.land (not64 Bo) Bu) in
    let Ego := Bo ^^ (N.land (not64 Bu) Ba) in
    let Egu := Bu ^^ (N.land (not64 Ba) Be) in
    let Ba := rotl_64 (Abe ^^ De) 1 in
    let Be := rotl_64 (Agi ^^ Di) 6 in
    let Bi := rotl_64 (Ako ^^ Do) 25 in
    let Bo := rotl_64 (Amu ^^ Du) 8 in
    let Bu := rotl_64 (Asa ^^ Da) 18 in
    let Eka := Ba ^^ (N.land (not64 Be) Bi) in
    let Eke := Be ^^ (N.land (not64 Bi) Bo) in
    let Eki := Bi ^^ (N.land (not64 Bo) Bu) in
    let Eko := Bo ^^ (N.land (not64 Bu) Ba) in
    let Eku := Bu ^^ (N.land (not64 Ba) Be) in
    let Ba := rotl_64 (Abu ^^ Du) 27 in
    let Be := rotl_64 (Aga ^^ Da) 36 in
    let Bi := rotl_64 (Ake ^^ De) 10 in
    let Bo := rotl_64 (Ami ^^ Di) 15 in
    let Bu := rotl_64 (Aso ^^ Do) 56 in
    let Ema := Ba ^^ (N.land (not64 Be) Bi) in
    let Eme := Be ^^ (N.land (not64 Bi) Bo) in
    let Emi := Bi ^^ (N.land (not64 Bo) Bu) in
    let Emo := Bo ^^ (N.land (not64 Bu) Ba) in
    let Emu := Bu ^^ (N.land (not64 Ba) Be) in
    let Ba := rotl_64 (Abi ^^ Di) 62 in
    let Be := rotl_64 (Ago ^^ Do) 55 in
    let Bi := rotl_64 (Aku ^^ Du) 39 in
    let Bo := rotl_64 (Ama ^^ Da) 41 in
    let Bu := rotl_64 (Ase ^^ De) 2 in
    let Esa := Ba ^^ (N.land (not64 Be) Bi) in
    let Ese := Be ^^ (N.land (not64 Bi) Bo) in
    let Esi := Bi ^^ (N.land (not64 Bo) Bu) in
    let Eso := Bo ^^ (N.land (not64 Bu) Ba) in
    let Esu := Bu ^^ (N.land (not64 Ba) Be) in
    [Eba; Ebe; Ebi; Ebo; Ebu;
     Ega; Ege; Egi; Ego; Egu; Eka; Eke; Eki; Eko; Eku;
     Ema; Eme; Emi; Emo; Emu; Esa; Ese; Esi; Eso; Esu]
  | _ => state
  end.

(** keccak.cpp:162-229: round [n + 1], from the variables Exx back to the variables Axx. *)
Definition round_E_A (n : nat) (state : list N) : list N :=
  match state with
  | [Eba; Ebe; Ebi; Ebo; Ebu;
     Ega; Ege; Egi; Ego; Egu; Eka; Eke; Eki; Eko; Eku;
     Ema; Eme; Emi; Emo; Emu; Esa; Ese; Esi; Eso; Esu] =>
    let Ba := (((Eba ^^ Ega) ^^ Eka) ^^ Ema) ^^ Esa in
    let Be := (((Ebe ^^ Ege) ^^ Eke) ^^ Eme) ^^ Ese in
    let Bi := (((Ebi ^^ Egi) ^^ Eki) ^^ Emi) ^^ Esi in
    let Bo := (((Ebo ^^ Ego) ^^ Eko) ^^ Emo) ^^ Eso in
    let Bu := (((Ebu ^^ Egu) ^^ Eku) ^^ Emu) ^^ Esu in
    let Da := Bu ^^ (rotl_64 Be 1) in
    let De := Ba ^^ (rotl_64 Bi 1) in
    let Di := Be ^^ (rotl_64 Bo 1) in
    let Do := Bi ^^ (rotl_64 Bu 1) in
    let Du := Bo ^^ (rotl_64 Ba 1) in
    let Ba := Eba ^^ Da in
    let Be := rotl_64 (Ege ^^ De) 44 in
    let Bi := rotl_64 (Eki ^^ Di) 43 in
    let Bo := rotl_64 (Emo ^^ Do) 21 in
    let Bu := rotl_64 (Esu ^^ Du) 14 in
    let Aba := (Ba ^^ (N.land (not64 Be) Bi)) ^^ (round_constant (n + 1)) in
    let Abe := Be ^^ (N.land (not64 Bi) Bo) in
    let Abi := Bi ^^ (N.land (not64 Bo) Bu) in
    let Abo := Bo ^^ (N.land (not64 Bu) Ba) in
    let Abu := Bu ^^ (N.land (not64 Ba) Be) in
    let Ba := rotl_64 (Ebo ^^ Do) 28 in
    let Be := rotl_64 (Egu ^^ Du) 20 in
    let Bi := rotl_64 (Eka ^^ Da) 3 in
    let Bo := rotl_64 (Eme ^^ De) 45 in
    let Bu := rotl_64 (Esi ^^ Di) 61 in
    let Aga := Ba ^^ (N.land (not64 Be) Bi) in
    let Age := Be ^^ (N.land (not64 Bi) Bo) in
    let Agi := Bi ^^ (N.land (not64 Bo) Bu) in
    let Ago := Bo ^^ (N.land (not64 Bu) Ba) in
    let Agu := Bu ^^ (N.land (not64 Ba) Be) in
    let Ba := rotl_64 (Ebe ^^ De) 1 in
    let Be := rotl_64 (Egi ^^ Di) 6 in
    let Bi := rotl_64 (Eko ^^ Do) 25 in
    let Bo := rotl_64 (Emu ^^ Du) 8 in
    let Bu := rotl_64 (Esa ^^ Da) 18 in
    let Aka := Ba ^^ (N.land (not64 Be) Bi) in
    let Ake := Be ^^ (N.land (not64 Bi) Bo) in
    let Aki := Bi ^^ (N.land (not64 Bo) Bu) in
    let Ako := Bo ^^ (N.land (not64 Bu) Ba) in
    let Aku := Bu ^^ (N.land (not64 Ba) Be) in
    let Ba := rotl_64 (Ebu ^^ Du) 27 in
    let Be := rotl_64 (Ega ^^ Da) 36 in
    let Bi := rotl_64 (Eke ^^ De) 10 in
    let Bo := rotl_64 (Emi ^^ Di) 15 in
    let Bu := rotl_64 (Eso ^^ Do) 56 in
    let Ama := Ba ^^ (N.land (not64 Be) Bi) in
    let Ame := Be ^^ (N.land (not64 Bi) Bo) in
    let Ami := Bi ^^ (N.land (not64 Bo) Bu) in
    let Amo := Bo ^^ (N.land (not64 Bu) Ba) in
    let Amu := Bu ^^ (N.land (not64 Ba) Be) in
    let Ba := rotl_64 (Ebi ^^ Di) 62 in
    let Be := rotl_64 (Ego ^^ Do) 55 in
    let Bi := rotl_64 (Eku ^^ Du) 39 in
    let Bo := rotl_64 (Ema ^^ Da) 41 in
    let Bu := rotl_64 (Ese ^^ De) 2 in
    let Asa := Ba ^^ (N.land (not64 Be) Bi) in
    let Ase := Be ^^ (N.land (not64 Bi) Bo) in
    let Asi := Bi ^^ (N.land (not64 Bo) Bu) in
    let Aso := Bo ^^ (N.land (not64 Bu) Ba) in
    let Asu := Bu ^^ (N.land (not64 Ba) Be) in
    [Aba; Abe; Abi; Abo; Abu;
     Aga; Age; Agi; Ago; Agu; Aka; Ake; Aki; Ako; Aku;
     Ama; Ame; Ami; Amo; Amu; Asa; Ase; Asi; Aso; Asu]
  | _ => state
  end.

(** keccak.cpp:49-257, [keccakf1600_implementation]: the loop [for (n = 0; n < 24; n += 2)]; the copies
    between [state] and the local variables (66-90, 232-256) are in order, hence the identity on lists.
    [keccakf1600_generic], [keccakf1600_bmi] and the pointer [keccakf1600_best] (259-279) all denote this
    function. *)
Fixpoint keccakf_from (count : nat) (n : nat) (state : list N) : list N :=
  match count with
  | O => state
  | S c => keccakf_from c (n + 2) (round_E_A n (round_A_E n state))
  end.
Definition keccakf1600 (state : list N) : list N := keccakf_from 12 0 state.

(** keccak.cpp:15-25, [load_le]: the first 8 bytes of the data as a little-endian number. *)
Fixpoint le_to_N (bs : bytes) : N :=
  match bs with
  | [] => 0
  | b :: r => b + 256 * le_to_N r
  end.
Definition load_le (data : bytes) : option N :=
  if (length data <? 8)%nat then None else Some (le_to_N (firstn 8 data)).

(** [state[i] ^= w]. *)
Fixpoint xor_at (i : nat) (w : N) (state : list N) : option (list N) :=
  match state, i with
  | [], _ => None
  | a :: r, O => Some (a ^^ w :: r)
  | a :: r, S j => match xor_at j w r with Some r' => Some (a :: r') | None => None end
  end.

(** keccak.cpp:298-301: the loop over the words of a whole block, with [count] words left. *)
Fixpoint absorb_words (count i : nat) (state : list N) (input : bytes) : option (list N * bytes) :=
  match count with
  | O => Some (state, input)
  | S c =>
    match load_le input with
    | None => None
    | Some w =>
      match xor_at i w state with
      | None => None
      | Some state' => absorb_words c (i + 1) state' (skipn 8 input)
      end
    end
  end.

(** keccak.cpp:294-314: the loop that consumes the input. Its state is the state array, the position of
    [state_iterator] and what is left of the input. It returns the state array, the position and the last
    bytes, fewer than 8, which the code copies into [last_word] (311-313). [fuel] bounds the iterations,
    each of which consumes at least 8 bytes; running out of it is excluded by the proofs. *)
Fixpoint consume (fuel : nat) (block_size : nat) (state : list N) (iter : nat) (input : bytes)
  : option (list N * nat * bytes) :=
  match fuel with
  | O => None
  | S fuel' =>
    match input with
    | [] => Some (state, iter, [])
    | _ =>
      if (block_size <=? length input)%nat then
        match absorb_words (block_size / 8) 0 state input with
        | None => None
        | Some (state', input') => consume fuel' block_size (keccakf1600 state') iter input'
        end
      else if (8 <=? length input)%nat then
        match load_le input with
        | None => None
        | Some w =>
          match xor_at iter w state with
          | None => None
          | Some state' => consume fuel' block_size state' (iter + 1) (skipn 8 input)
          end
        end
      else Some (state, iter, input)
    end
  end.

(** The 8 bytes of a word in memory. *)
Fixpoint le_bytes (k : nat) (n : N) : bytes :=
  match k with
  | O => []
  | S k' => n mod 256 :: le_bytes k' (n / 256)
  end.

(** keccak.cpp:292, 311-316: the bytes of [last_word], zero at first: the rest of the input, then 0x01. A
    rest of 8 bytes or more would be written past the end of [last_word]. *)
Definition last_word_bytes (rest : bytes) : option bytes :=
  if (8 <=? length rest)%nat then None else Some (rest ++ [0x01] ++ zeros (7 - length rest)).

(** keccak.cpp:281-325, [keccak]: the output as the bytes of the words written to [out]. *)
Definition keccak_impl (bits : nat) (input : bytes) : option bytes :=
  let hash_size := (bits / 8)%nat in
  let block_size := ((1600 - bits * 2) / 8)%nat in
  let block_word64s := (block_size / 8)%nat in
  match consume (S (length input)) block_size (repeat 0 25) 0 input with
  | None => None
  | Some (state, iter, rest) =>
    match last_word_bytes rest with
    | None => None
    | Some lw =>
      match xor_at iter (le_to_N lw) state with
      | None => None
      | Some state1 =>
        match xor_at (block_word64s - 1) 0x8000000000000000 state1 with
        | None => None
        | Some state2 =>
          let final := keccakf1600 state2 in
          Some (concat (map (le_bytes 8) (firstn (hash_size / 8) final)))
        end
      end
    end
  end.

(** keccak.cpp:327-341, [keccak256] and [keccak512]. *)
Definition keccak256 (input : bytes) : option bytes := keccak_impl 256 input.
Definition keccak512 (input : bytes) : option bytes := keccak_impl 512 input.
