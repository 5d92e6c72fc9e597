(** Model of cmd/extract_headers.cpp: the file of hard coded headers. Command line, opening of the database, the printing of times and
    failures to write the file are left out. [head_header] is the content of the table LastHeader. *)
From Coq Require Import Strings.String.
From Verif Require Import Base BlockModel DbTable DbModel IndexModel.
Open Scope list_scope.
Open Scope N_scope.

(** boost/beast/core/detail/base64.ipp, the alphabet *)
Definition tab (i : N) : N := nth (N.to_nat i) (str "ABCDEFGHIJKLMNOPQRSTUVWXYZabcdefghijklmnopqrstuvwxyz0123456789+/"%string) 0.
(** boost/beast/core/detail/base64.ipp: what encode writes; 61 is '='. *)
Definition b64_first (x : N) : N := tab (N.shiftr (N.land x 0xfc) 2).
Definition b64_second (x y : N) : N := tab (N.shiftl (N.land x 3) 4 + N.shiftr (N.land y 0xf0) 4).
Definition b64_third (y z : N) : N := tab (N.shiftr (N.land z 0xc0) 6 + N.shiftl (N.land y 0x0f) 2).
Definition b64_fourth (z : N) : N := tab (N.land z 0x3f).
Fixpoint encode64 (b : bytes) : bytes :=
  match b with
  | x :: y :: z :: r => b64_first x :: b64_second x y :: b64_third y z :: b64_fourth z :: encode64 r
  | [x; y] => [b64_first x; b64_second x y; b64_third y 0; 61]
  | [x] => [b64_first x; b64_second x 0; 61; 61]
  | [] => []
  end.
(** boost/beast/core/detail/base64.hpp, encoded_size *)
Definition encoded_size (n : nat) : nat := (4 * ((n + 2) / 3))%nat.
(** cmd/extract_headers.cpp:165-173: the string has encoded_size characters (all written by encode); without any, its last one is read before the
    begin of the string. *)
Definition base64encode (b : bytes) : out bytes :=
  let e := firstn (encoded_size (length b)) (encode64 b ++ zeros (encoded_size (length b))) in
  let n := length e in
  if (n <? 2)%nat then Undefined
  else
    let padding := ((if (nth (n - 1) e 0%N =? 61)%N then 1 else 0) + (if (nth (n - 2) e 0%N =? 61)%N then 1 else 0))%nat in
    Done (firstn (n - padding) e).

(** cmd/extract_headers.cpp:154-162, without the '@' that separates the two parts (142-149). *)
Definition newline : bytes := [10].
Definition template_begin : bytes :=
  newline ++ str "    // hard coded headers"%string ++ newline ++ str "    #include <silkworm/db/header_download.hpp> // ?"%string ++ newline ++ newline
  ++ str "    const char* hard_coded_headers[] = {   // ""header1""; ""header2""; ..."%string ++ newline ++ str "        "%string.
Definition template_end : bytes := newline ++ str "    };"%string ++ newline ++ str "    "%string.
(** cmd/extract_headers.cpp:119-140: what is in the file; [empty] is kept with it. *)
Record list_file := mkFile { l_text : bytes; l_empty : bool }.
Definition new_file : list_file := mkFile [] true.
Definition add_header (f : list_file) (header : bytes) : list_file :=
  mkFile (l_text f ++ (if l_empty f then template_begin else str ","%string ++ newline) ++ str "    """%string ++ header ++ str """"%string) false.
Definition close_file (f : list_file) : bytes := l_text f ++ (if l_empty f then [] else newline ++ template_end).

(** cmd/extract_headers.cpp:63-73; a value that is not 32 bytes long is only asserted away. *)
Definition read_canonical_hash (d : database) (n : N) : out (option bytes) :=
  match lookup (d kCanonicalHashes) (block_key n) with
  | None => Done None
  | Some v => if (length v <? 32)%nat then Undefined else Done (Some (firstn 32 v))
  end.
(** cmd/extract_headers.cpp:202-208; how the loop ends: at a height, by an exception, undefined, or still running without fuel. *)
Inductive loop_end := Ended (n : N) | Thrown | Undef | Running.
Fixpoint extract_loop (fuel : nat) (d : database) (step n : N) (f : list_file) : list_file * loop_end :=
  match fuel with
  | O => (f, Running)
  | S fuel =>
    if n <? 2 ^ 64 - 1 then
      match read_canonical_hash d n with
      | Undefined => (f, Undef)
      | Throws => (f, Thrown)
      | Done None => (f, Ended n)
      | Done (Some hash) =>
        match lookup (d kHeaders) (block_key_hash n hash) with
        | None => (f, Thrown)
        | Some rlp =>
          match base64encode rlp with
          | Done text => extract_loop fuel d step ((n + step) mod 2 ^ 64) (add_header f text)
          | Throws => (f, Thrown)
          | Undefined => (f, Undef)
          end
        end
      end
    else (f, Ended n)
  end.

(** cmd/extract_headers.cpp:75-89 *)
Definition head_header_key : bytes := str "LastHeader"%string.
Definition read_head_header_hash (head_header : table) : out (option bytes) :=
  match lookup head_header head_header_key with
  | None => Done None
  | Some v => if (length v <? 32)%nat then Undefined else Done (Some (firstn 32 v))
  end.
(** cmd/extract_headers.cpp:107-116 *)
Definition read_header_of_hash (d : database) (hash : bytes) : out (option block_header) :=
  match lookup (d kHeaderNumbers) hash with
  | None => Done None
  | Some v => do n := load_big_u64 v in read_header d n hash
  end.
(** cmd/extract_headers.cpp:196-225: the file, the height printed, and the status of the process; [None]: it does not end, or is undefined. *)
Definition final_status (d : database) (head_header : table) : option N :=
  match read_head_header_hash head_header with
  | Undefined => None
  | Throws => Some 1
  | Done None => Some 1
  | Done (Some hash) =>
    match read_header_of_hash d hash with
    | Undefined => None
    | Throws => Some 1
    | Done None => Some 1
    | Done (Some _) => Some 0
    end
  end.
Definition extract_headers (fuel : nat) (d : database) (head_header : table) (step : N) : option (bytes * option N * N) :=
  match extract_loop fuel d step 0 new_file with
  | (f, Ended n) => match final_status d head_header with Some s => Some (close_file f, Some n, s) | None => None end
  | (f, Thrown) => Some (close_file f, None, 1)
  | (_, Undef) | (_, Running) => None
  end.
