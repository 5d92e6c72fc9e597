(** What the file of hard coded headers has to contain. *)
From Coq Require Import Strings.String.
From Verif Require Import Base DbTable DbModel.
Open Scope list_scope.
Open Scope N_scope.

(** The [k] low bits of a number, the highest first. *)
Fixpoint bits (k : nat) (n : N) : list bool := match k with O => [] | S k => N.testbit n (N.of_nat k) :: bits k n end.
(** RFC 4648, section 4: the character of a digit. *)
Definition digit_char (d : N) : N :=
  if d <? 26 then 65 + d else if d <? 52 then 97 + (d - 26) else if d <? 62 then 48 + (d - 52) else if d =? 62 then 43 else 47.
(** RFC 4648 without padding characters: the bits of the bytes in groups of six, the last group filled with zeros. *)
Definition base64_of (text b : bytes) : Prop :=
  exists digits fill, Forall (fun d => d < 64) digits /\ text = map digit_char digits /\ (fill < 6)%nat
    /\ concat (map (bits 6) digits) = concat (map (bits 8) b) ++ repeat false fill.

(** The text of a C array with the strings given as its elements, one a line. *)
Definition quoted (s : bytes) : bytes := str "    """%string ++ s ++ str """"%string.
Fixpoint joined (sep : bytes) (l : list bytes) : bytes := match l with [] => [] | [x] => x | x :: r => x ++ sep ++ joined sep r end.
Definition array_begin : bytes :=
  str "
    // hard coded headers
    #include <silkworm/db/header_download.hpp> // ?

    const char* hard_coded_headers[] = {   // ""header1""; ""header2""; ...
        "%string.
Definition array_end : bytes := str "

    };
    "%string.
Definition array_text (l : list bytes) : bytes := match l with [] => [] | _ => array_begin ++ joined [44; 10] (map quoted l) ++ array_end end.

(** The stored header of the canonical block at a height. *)
Definition canonical_at (d : database) (n : N) : Prop := exists v, lookup (d kCanonicalHashes) (block_key n) = Some v.
Definition header_at (d : database) (n : N) (rlp : bytes) : Prop :=
  exists hash, blen hash = 32 /\ lookup (d kCanonicalHashes) (block_key n) = Some hash /\ lookup (d kHeaders) (block_key_hash n hash) = Some rlp.
