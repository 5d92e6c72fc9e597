(** Model of core/silkworm/common/util.{hpp,cpp}. Characters of strings are represented by their codes, as bytes. *)
From Verif Require Import Base.

(** ** Padding. A view either lies outside the buffer or is a part of it. *)
Inductive source := Outside (v : bytes) | Inside (off len : nat).
Definition source_ok (buffer : bytes) (s : source) : Prop :=
  match s with Outside _ => True | Inside off len => (off + len <= length buffer)%nat end.
Definition view_of (buffer : bytes) (s : source) : bytes :=
  match s with Outside v => v | Inside off len => firstn len (skipn off buffer) end.

(** std::basic_string::resize: cut, or fill with zero bytes. *)
Definition resize (n : nat) (b : bytes) : bytes := firstn n b ++ zeros (n - length b).
(** std::memmove of [v] to position [pos] (overlap allowed). *)
Definition overwrite (pos : nat) (v b : bytes) : bytes := firstn pos b ++ v ++ skipn (pos + length v) b.

(** common/util.cpp:24-48. Result: the returned view's bytes and the buffer; None is undefined behaviour. When the
    buffer grows (line 30) it is taken to be reallocated, so a view into it dangles before it is moved. *)
Definition left_pad (s : source) (min_size : nat) (buffer : bytes) : option (bytes * bytes) :=
  let v := view_of buffer s in
  if (min_size <=? length v)%nat then Some (v, buffer)
  else
    let grows := (length buffer <? min_size)%nat in
    match s, grows with
    | Inside _ _, true => None
    | _, _ =>
      let b := if grows then resize min_size buffer else buffer in
      let prefix_len := (min_size - length v)%nat in
      let b := overwrite prefix_len v b in
      let b := resize min_size b in
      let b := overwrite 0 (zeros prefix_len) b in
      Some (b, b)
    end.

(** common/util.cpp:50-70 *)
Definition right_pad (s : source) (min_size : nat) (buffer : bytes) : option (bytes * bytes) :=
  let v := view_of buffer s in
  if (min_size <=? length v)%nat then Some (v, buffer)
  else
    let grows := (length buffer <? length v)%nat in
    match s, grows with
    | Inside _ _, true => None
    | _, _ =>
      let b := if grows then resize (length v) buffer else buffer in
      let b := overwrite 0 v b in
      let b := resize (length v) b in
      let b := resize min_size b in
      Some (b, b)
    end.

(** common/util.cpp:72-84 (n = 20, 32); evmc types are zero-initialised. *)
Definition to_fixed (n : nat) (b : bytes) : bytes :=
  let k := Nat.min (length b) n in overwrite (n - k) (firstn k b) (zeros n).
Definition to_address : bytes -> bytes := to_fixed 20.
Definition to_bytes32 : bytes -> bytes := to_fixed 32.

(** common/util.cpp:86-92 *)
Fixpoint zeroless_view (h : bytes) : bytes :=
  match h with 0 :: t => zeroless_view t | _ => h end.

(** common/util.cpp:220-228 *)
Fixpoint prefix_length (a b : bytes) : nat :=
  match a, b with
  | x :: a', y :: b' => if x =? y then S (prefix_length a' b') else O
  | _, _ => O
  end.

(** ** Hex *)
(** common/util.cpp:98-113: kHexDigits[d] *)
Definition hex_digit (d : N) : N := if d <? 10 then 48 + d else 87 + d.
Definition to_hex (b : bytes) : bytes :=
  concat (map (fun x => [hex_digit (N.shiftr x 4); hex_digit (N.land x 15)]) b).

(** common/util.cpp:115-124 *)
Definition decode_hex_digit (ch : N) : option N :=
  if (48 <=? ch) && (ch <=? 57) then Some (ch - 48)
  else if (97 <=? ch) && (ch <=? 102) then Some (ch - 97 + 10)
  else if (65 <=? ch) && (ch <=? 70) then Some (ch - 65 + 10)
  else None.

(** common/util.cpp:126-152. The loop over characters: [carry] holds the high nibble at odd positions. *)
Fixpoint from_hex_loop (hex : bytes) (odd : bool) (carry : N) : option bytes :=
  match hex with
  | [] => Some []
  | ch :: t =>
    match decode_hex_digit ch with
    | None => None
    | Some v =>
      if odd then
        match from_hex_loop t false 0 with Some r => Some ((N.lor carry v mod 256) :: r) | None => None end
      else from_hex_loop t true (N.shiftl v 4)
    end
  end.
Definition strip_0x (hex : bytes) : bytes :=
  match hex with
  | 48 :: x :: t => if (x =? 120) || (x =? 88) then t else hex
  | _ => hex
  end.
Definition from_hex (hex : bytes) : option bytes :=
  let hex := strip_0x hex in
  if negb (blen hex mod 2 =? 0) then None else from_hex_loop hex false 0.

(** ** Sizes *)
(** ctype tolower on ASCII; used by iequals (common/util.cpp:154-158). *)
Definition tolower (c : N) : N := if (65 <=? c) && (c <=? 90) then c + 32 else c.
Definition iequals (a b : bytes) : bool := bytes_eqb (map tolower a) (map tolower b).

Definition is_digit (c : N) : bool := (48 <=? c) && (c <=? 57).
Fixpoint span (p : N -> bool) (s : bytes) : bytes * bytes :=
  match s with
  | c :: t => if p c then let '(a, r) := span p t in (c :: a, r) else ([], s)
  | [] => ([], [])
  end.
(** strtoull/strtoul base 10 on a string of digits: saturates at 2^64 - 1. *)
Definition dec_value (s : bytes) : N := fold_left (fun acc c => acc * 10 + (c - 48)) s 0.
Definition strtoull (s : bytes) : N := N.min (dec_value s) (2 ^ 64 - 1).

(** The regular expression of common/util.cpp:165, ^(\d* )(\.\d{1,3})?\ *?(B|KB|MB|GB|TB)?$ (icase), as the
    deterministic parser it amounts to: digits, then optionally a dot with one to three digits, spaces, an optional unit,
    end. Result: the three groups. *)
Definition kUnits : list bytes := [[66]; [75; 66]; [77; 66]; [71; 66]; [84; 66]].
Definition match_size (s : bytes) : option (bytes * bytes * bytes) :=
  let '(int_part, s) := span is_digit s in
  let tail (dec s : bytes) :=
    let '(_, suf) := span (fun c => c =? 32) s in
    if (match suf with [] => true | _ => existsb (iequals suf) kUnits end) then Some (int_part, dec, suf) else None in
  match s with
  | 46 :: s' =>
    let '(dec, rest) := span is_digit s' in
    if (1 <=? blen dec) && (blen dec <=? 3) then tail dec rest else None
  | _ => tail [] s
  end.

(** common/util.cpp:160-202; number is an unsigned 64-bit integer. *)
Definition multiplier_of (suf : bytes) : N :=
  if iequals suf [75; 66] then 2 ^ 10
  else if iequals suf [77; 66] then 2 ^ 20
  else if iequals suf [71; 66] then 2 ^ 30
  else if iequals suf [84; 66] then 2 ^ 40
  else 1.
Definition parse_size (s : bytes) : option N :=
  match s with
  | [] => Some 0
  | _ =>
    match match_size s with
    | None => None
    | Some (int_part, dec_part, suf_part) =>
      let multiplier := multiplier_of suf_part in
      let number := (strtoull int_part * multiplier) mod 2 ^ 64 in
      Some (match dec_part with
            | [] => number
            | _ => let b := 10 ^ blen dec_part in
                   let d := strtoull dec_part in
                   (number + (multiplier * d) mod 2 ^ 64 / b) mod 2 ^ 64
            end)
    end
  end.

(** ** common/util.cpp:230-246, split. [find_sub d s]: split at the first occurrence of [d] (std::string::find). *)
Fixpoint starts_with (d s : bytes) : option bytes :=
  match d, s with
  | [], _ => Some s
  | x :: d', y :: s' => if x =? y then starts_with d' s' else None
  | _ :: _, [] => None
  end.
Fixpoint find_sub (d s : bytes) : option (bytes * bytes) :=
  match starts_with d s with
  | Some r => Some ([], r)
  | None => match s with
            | [] => None
            | c :: t => match find_sub d t with Some (a, r) => Some (c :: a, r) | None => None end
            end
  end.
(** The loop; fuel: one unit per character, each round removes at least the delimiter. *)
Fixpoint split_loop (fuel : nat) (d s : bytes) : option (list bytes) :=
  match find_sub d s with
  | None => Some (match s with [] => [] | _ => [s] end)
  | Some (a, r) =>
    match fuel with
    | O => None
    | S fuel' => match split_loop fuel' d r with Some l => Some (a :: l) | None => None end
    end
  end.
Definition split (source delimiter : bytes) : option (list bytes) :=
  if (blen source <=? blen delimiter) || (blen delimiter =? 0) then Some [source]
  else split_loop (length source) delimiter source.
