(** Model of core/silkworm/rlp/{encode,decode}.{hpp,cpp}. *)
From Verif Require Import Base.

(** ** Outcomes *)

(** core/silkworm/rlp/decode.hpp:36-48, enum DecodingResult without kOk. *)
Inductive derr : Type :=
| kOverflow | kLeadingZero | kInputTooShort | kNonCanonicalSingleByte | kNonCanonicalSize
| kUnexpectedLength | kUnexpectedString | kUnexpectedList | kListLengthMismatch
| kUnsupportedTransactionType.

(** Outcome of a decoder. [UB] is undefined behaviour (a read outside the view or
    remove_prefix beyond its end); [NoFuel] is the model running out of loop fuel.
    On an error the position of the view is not modelled: every caller in the repo returns at once. *)
Inductive res (A : Type) : Type :=
| Ok (a : A) | Err (e : derr) | UB | NoFuel.
Arguments Ok {A} a.
Arguments Err {A} e.
Arguments UB {A}.
Arguments NoFuel {A}.

Definition bind {A B} (r : res A) (f : A -> res B) : res B :=
  match r with Ok a => f a | Err e => Err e | UB => UB | NoFuel => NoFuel end.

Notation "'let*' x := e 'in' k" := (bind e (fun x => k))
  (at level 200, x name, e at level 100, k at level 200, right associativity).
Notation "'let*' ' p := e 'in' k" := (bind e (fun p => k))
  (at level 200, p strict pattern, e at level 100, k at level 200, right associativity).

(** [from[0]] on a ByteView: undefined when the view is empty. *)
Definition at0 (from : bytes) : res N :=
  match from with [] => UB | b :: _ => Ok b end.

(** std::basic_string_view::remove_prefix: undefined beyond the end. *)
Definition remove_prefix (n : N) (from : bytes) : res bytes :=
  if n <=? blen from then Ok (skipn (N.to_nat n) from) else UB.

(** std::basic_string_view::substr(0, n): clamps. *)
Definition substr0 (n : N) (from : bytes) : bytes :=
  firstn (N.to_nat (N.min n (blen from))) from.

(** std::memcpy of [n] bytes out of the view: undefined beyond the end. *)
Definition memcpy_from (n : N) (from : bytes) : res bytes :=
  if n <=? blen from then Ok (firstn (N.to_nat n) from) else UB.

(** ** Encoding *)

(** rlp/encode.hpp:43-46 *)
Record header := mkHeader { h_list : bool; h_payload_length : N }.

(** rlp/encode.cpp:104-112, big_endian(uint64_t): byte-swapped buffer minus clz/8 leading bytes. *)
Definition big_endian64 (n : N) : bytes := skipn (N.to_nat (clz 64 n / 8)) (be_fixed 8 n).

(** rlp/encode.cpp:114-120, big_endian(intx::uint256). *)
Definition big_endian256 (n : N) : bytes := skipn (N.to_nat (clz 256 n / 8)) (be_fixed 32 n).

(** rlp/encode.cpp:24-34; the result is what is appended to [to]; codes are uint8_t. *)
Definition encode_header (h : header) : bytes :=
  if h_payload_length h <? 56 then
    let code := if h_list h then 0xC0 else 0x80 in
    [(code + h_payload_length h) mod 256]
  else
    let len_be := big_endian64 (h_payload_length h) in
    let code := if h_list h then 0xF7 else 0xB7 in
    ((code + blen len_be) mod 256) :: len_be.

(** rlp/encode.cpp:36-42 *)
Definition length_of_length (payload_length : N) : N :=
  if payload_length <? 56 then 1 else 1 + 8 - clz 64 payload_length / 8.

(** rlp/encode.cpp:49-54 ([s.length() != 1 || s[0] >= 0x80]). *)
Definition needs_header (s : bytes) : bool :=
  match s with [b] => 0x80 <=? b | _ => true end.
Definition encode_bytes (s : bytes) : bytes :=
  (if needs_header s then encode_header (mkHeader false (blen s)) else []) ++ s.

(** rlp/encode.cpp:56-62 *)
Definition length_bytes (s : bytes) : N :=
  blen s + (if needs_header s then length_of_length (blen s) else 0).

(** rlp/encode.cpp:64-74 *)
Definition encode_u64 (n : N) : bytes :=
  if n =? 0 then [0x80]
  else if n <? 0x80 then [n mod 256]
  else let be := big_endian64 n in ((0x80 + blen be) mod 256) :: be.

(** rlp/encode.cpp:76-82 *)
Definition length_u64 (n : N) : N := if n <? 0x80 then 1 else 1 + 8 - clz 64 n / 8.

(** rlp/encode.cpp:84-94 *)
Definition encode_u256 (n : N) : bytes :=
  if n =? 0 then [0x80]
  else if n <? 0x80 then [n mod 256]
  else let be := big_endian256 n in ((0x80 + blen be) mod 256) :: be.

(** rlp/encode.cpp:96-102 *)
Definition length_u256 (n : N) : N := if n <? 0x80 then 1 else 1 + 32 - clz 256 n / 8.

(** rlp/encode.hpp:58-73 and encode.cpp:44-47 (evmc::bytes32, N = 32): fixed-size array of
    [blen b] <= 55 bytes. *)
Definition encode_fixed (b : bytes) : bytes := ((0x80 + blen b) mod 256) :: b.

(** rlp/encode.hpp:84 *)
Definition length_bytes32 : N := 32 + 1.

(** rlp/encode.hpp:95-114: vector of T from the length and encoding functions of T. *)
Definition sum_lengths {A} (len : A -> N) (v : list A) : N := fold_left (fun acc x => acc + len x) v 0.
Definition length_vector {A} (len : A -> N) (v : list A) : N :=
  length_of_length (sum_lengths len v) + sum_lengths len v.
Definition encode_vector {A} (len : A -> N) (enc : A -> bytes) (v : list A) : bytes :=
  encode_header (mkHeader true (sum_lengths len v)) ++ concat (map enc v).

(** ** Decoding *)

(** rlp/decode.cpp:27-77: read_uint64 (max = 8) and read_uint256 (max = 32). The bytes are copied
    to the end of a zeroed buffer which is then read as a big-endian number. *)
Definition read_uint (max : nat) (be : bytes) (allow_leading_zeros : bool) : res N :=
  if N.of_nat max <? blen be then Err kOverflow
  else match be with
       | [] => Ok 0
       | _ =>
         let* b0 := at0 be in
         if (b0 =? 0) && negb allow_leading_zeros then Err kLeadingZero
         else Ok (be_to_N (zeros (max - length be) ++ be))
       end.
Definition read_uint64 := read_uint 8.
Definition read_uint256 := read_uint 32.

(** The two long forms of decode_header share their code: rlp/decode.cpp:100-113 and 119-133. *)
Definition decode_long_header (lst : bool) (len_of_len : N) (from : bytes) : res (header * bytes) :=
  if blen from <? len_of_len then Err kInputTooShort
  else
    let* len := read_uint64 (substr0 len_of_len from) false in
    let* from := remove_prefix len_of_len from in
    if len <? 56 then Err kNonCanonicalSize else Ok (mkHeader lst len, from).

(** rlp/decode.cpp:79-141 *)
Definition decode_header (from : bytes) : res (header * bytes) :=
  match from with
  | [] => Err kInputTooShort
  | _ =>
    let* b := at0 from in
    let* '(h, from) :=
       (if b <? 0x80 then Ok (mkHeader false 1, from)
        else if b <? 0xB8 then
          let* from := remove_prefix 1 from in
          let len := b - 0x80 in
          if len =? 1 then
            match from with
            | [] => Err kInputTooShort
            | _ => let* c := at0 from in
                   if c <? 0x80 then Err kNonCanonicalSingleByte else Ok (mkHeader false len, from)
            end
          else Ok (mkHeader false len, from)
        else if b <? 0xC0 then
          let* from := remove_prefix 1 from in decode_long_header false (b - 0xB7) from
        else if b <? 0xF8 then
          let* from := remove_prefix 1 from in Ok (mkHeader true (b - 0xC0), from)
        else
          let* from := remove_prefix 1 from in decode_long_header true (b - 0xF7) from) in
    if blen from <? h_payload_length h then Err kInputTooShort else Ok (h, from)
  end.

(** rlp/decode.hpp:72-90: fixed-size array of [n] bytes (also evmc::bytes32, decode.cpp:143-146). *)
Definition decode_fixed (n : N) (from : bytes) : res (bytes * bytes) :=
  let* '(h, from) := decode_header from in
  if h_list h then Err kUnexpectedList
  else if negb (h_payload_length h =? n) then Err kUnexpectedLength
  else
    let* to := memcpy_from n from in
    let* from := remove_prefix n from in
    Ok (to, from).

(** rlp/decode.cpp:148-160 *)
Definition decode_bytes (from : bytes) : res (bytes * bytes) :=
  let* '(h, from) := decode_header from in
  if h_list h then Err kUnexpectedList
  else
    let to := substr0 (h_payload_length h) from in
    let* from := remove_prefix (h_payload_length h) from in
    Ok (to, from).

(** rlp/decode.cpp:175-191 (max = 8) and 193-209 (max = 32). *)
Definition decode_uint (max : nat) (from : bytes) : res (N * bytes) :=
  let* '(h, from) := decode_header from in
  if h_list h then Err kUnexpectedList
  else
    let* to := read_uint max (substr0 (h_payload_length h) from) false in
    let* from := remove_prefix (h_payload_length h) from in
    Ok (to, from).
Definition decode_u64 := decode_uint 8.
Definition decode_u256 := decode_uint 32.

(** rlp/decode.cpp:162-173 *)
Definition decode_bool (from : bytes) : res (bool * bytes) :=
  let* '(i, from) := decode_u64 from in
  if 1 <? i then Err kOverflow else Ok (negb (i =? 0), from).

(** The loop of rlp/decode.hpp:115-120. *)
Fixpoint decode_items {A} (fuel : nat) (dec : bytes -> res (A * bytes)) (view : bytes) : res (list A) :=
  match view with
  | [] => Ok []
  | _ =>
    match fuel with
    | O => NoFuel
    | S fuel' =>
      let* '(x, view) := dec view in
      let* xs := decode_items fuel' dec view in
      Ok (x :: xs)
    end
  end.

(** rlp/decode.hpp:102-124. One unit of fuel per payload byte: each item consumes at least one byte. *)
Definition decode_vector {A} (dec : bytes -> res (A * bytes)) (from : bytes) : res (list A * bytes) :=
  let* '(h, from) := decode_header from in
  if negb (h_list h) then Err kUnexpectedString
  else
    let payload_view := substr0 (h_payload_length h) from in
    let* to := decode_items (length payload_view) dec payload_view in
    let* from := remove_prefix (h_payload_length h) from in
    Ok (to, from).
