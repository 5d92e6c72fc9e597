(** Model of db/silkworm/etl: the collector that sorts entries, spills them to files and loads them in order.

    Files are the bytes written to them. Left out: disk space and I/O errors, names of files, logging. *)
From Verif Require Import Base DbTable DbModel.

(** etl/util.cpp:21-27 is [pair_lt]: keys first, then values (std::basic_string::compare: byte-wise, prefixes first). *)
Definition entry_le (a b : entry) : bool := negb (pair_lt b a).
(** etl/buffer.cpp:36: std::sort. The order is total, so the sorted sequence is unique and the algorithm does not matter. *)
Fixpoint insert (x : entry) (l : list entry) : list entry :=
  match l with [] => [x] | y :: r => if entry_le x y then x :: l else y :: insert x r end.
Fixpoint sort (l : list entry) : list entry := match l with [] => [] | x :: r => insert x (sort r) end.

(** etl/util.hpp:31-42; lengths are stored in the byte order of the machine (little-endian). *)
Definition entry_size (e : entry) : N := blen (fst e) + blen (snd e).
Fixpoint le4 (k : nat) (n : N) : bytes := match k with O => [] | S k => n mod 256 :: le4 k (n / 256) end.
Fixpoint le_value (b : bytes) : N := match b with [] => 0 | x :: r => x + 256 * le_value r end.
(** etl/file_provider.cpp:51-61 *)
Definition file_record (e : entry) : bytes := le4 4 (blen (fst e) mod 2 ^ 32) ++ le4 4 (blen (snd e) mod 2 ^ 32) ++ fst e ++ snd e.
Definition file_bytes (l : list entry) : bytes := concat (map file_record l).

(** etl/file_provider.hpp; p_data: what is still to be read. *)
Record provider := mkProvider { p_open : bool; p_size : N; p_data : bytes }.
(** file_provider.cpp:32-74 *)
Definition provider_flush (entries : list entry) (size : N) : provider :=
  mkProvider true ((size + N.of_nat (length entries) * 8) mod 2 ^ 64) (file_bytes entries).
(** file_provider.cpp:76-105: the entry read (none at the end of the file) and the provider afterwards. *)
Definition read_entry (p : provider) : out (option entry * provider) :=
  if negb (p_open p) || (p_size p =? 0) then Throws
  else if (length (p_data p) <? 8)%nat then Done (None, mkProvider false 0 [])
  else
    let kl := N.to_nat (le_value (firstn 4 (p_data p))) in
    let vl := N.to_nat (le_value (firstn 4 (skipn 4 (p_data p)))) in
    let rest := skipn 8 (p_data p) in
    if (length rest <? kl)%nat || (length (skipn kl rest) <? vl)%nat then Throws
    else Done (Some (firstn kl rest, firstn vl (skipn kl rest)), mkProvider true (p_size p) (skipn vl (skipn kl rest))).

(** etl/collector.hpp:60-82; a null pointer of file_providers_ is [None]. *)
Record collector := mkCollector { c_limit : N; c_buffer : list entry; c_bytes : N; c_files : list (option provider); c_size : N }.
Definition new_collector (limit : N) : collector := mkCollector limit [] 0 [] 0.
(** collector.cpp:36-50 *)
Definition flush_buffer (c : collector) : collector :=
  if c_bytes c =? 0 then c
  else mkCollector (c_limit c) [] 0 (c_files c ++ [Some (provider_flush (sort (c_buffer c)) (c_bytes c))]) (c_size c).
(** collector.cpp:54-60, buffer.cpp:23-34, 42-47 *)
Definition collect (c : collector) (e : entry) : collector :=
  let c := mkCollector (c_limit c) (c_buffer c ++ [e]) ((c_bytes c + entry_size e) mod 2 ^ 64) (c_files c) ((c_size c + 1) mod 2 ^ 64) in
  if c_limit c <=? c_bytes c then flush_buffer c else c.

Fixpoint set_nth {A} (l : list A) (i : nat) (x : A) : list A :=
  match l, i with [], _ => [] | _ :: r, O => x :: r | y :: r, S i => y :: set_nth r i x end.
Definition remove_nth {A} (l : list A) (i : nat) : list A := firstn i l ++ skipn (S i) l.

(** collector.cpp:62-157: the entries handed to the load function, in order, and the collector afterwards.
    [pick] stands for the heap of std::priority_queue: it gives the place of a least element of the queue. *)
Section Load.
  Variable pick : list (entry * nat) -> nat.
  (** collector.cpp:109-116 *)
  Fixpoint fill_queue (i : nat) (files : list (option provider)) : out (list (entry * nat) * list (option provider)) :=
    match files with
    | [] => Done ([], [])
    | None :: _ => Undefined
    | Some p :: r =>
      do (item, p) := read_entry p in
      do (q, r) := fill_queue (S i) r in
      Done (match item with Some e => (e, i) :: q | None => q end, Some p :: r)
    end.
  (** collector.cpp:118-155 *)
  Fixpoint drain (fuel : nat) (q : list (entry * nat)) (files : list (option provider)) : out (list entry * list (option provider)) :=
    match q with
    | [] => Done ([], files)
    | _ :: _ =>
      match fuel, nth_error q (pick q) with
      | S fuel, Some (e, i) =>
        match nth_error files i with
        | Some (Some p) =>
          do (next, p) := read_entry p in
          let q := remove_nth q (pick q) in
          do (l, files) := match next with
                           | Some n => drain fuel (q ++ [(n, i)]) (set_nth files i (Some p))
                           | None => drain fuel q (set_nth files i None)
                           end in
          Done (e :: l, files)
        | Some None => Undefined
        | None => Throws
        end
      | _, _ => Undefined
      end
    end.
  Definition load (fuel : nat) (c : collector) : out (list entry * collector) :=
    if c_size c =? 0 then Done ([], c)
    else match c_files c with
         | [] => Done (sort (c_buffer c), mkCollector (c_limit c) [] 0 [] (c_size c))
         | _ =>
           let c := flush_buffer c in
           do (q, files) := fill_queue 0 (c_files c) in
           do (l, files) := drain fuel q files in
           Done (l, mkCollector (c_limit c) (c_buffer c) (c_bytes c) files 0)
         end.
End Load.

(** collector.cpp:82-84, 127-129 (no load function, MDBX_UPSERT) *)
Definition put_all (t : table) (l : list entry) : table := fold_left (fun t e => upsert t (fst e) (snd e)) l t.
