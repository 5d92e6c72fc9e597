(** Model of core/silkworm/trie/hash_builder.{hpp,cpp} and vector_root.hpp.
    A path is a list of nibbles, one per byte. [None] is undefined behaviour: an index out of range, an empty stack,
    a failing assert about one of these. *)
From Verif Require Import Base RlpModel UtilModel.

(** common/base.hpp: kEmptyRoot *)
Definition kEmptyRoot : bytes := be_fixed 32 0x56e81f171bcc55a6ff8345e692c0f86e5b48e01b996cadc001622fb5e363b421.

(** hash_builder.hpp:34-58 *)
Record node := mkNode { n_state_mask : N; n_tree_mask : N; n_hash_mask : N; n_hashes : list bytes; n_root_hash : option bytes }.

(** hash_builder.hpp:96-102; [hb_stack] has the back of the vector first; [hb_out] collects the calls of node_collector. *)
Record hb := mkHb {
  hb_key : bytes; hb_value : bytes; hb_groups : list N; hb_tree_masks : list N; hb_hash_masks : list N; hb_stack : list bytes;
  hb_out : list (bytes * node) }.
Definition hb_new : hb := mkHb [] [] [] [] [] [] [].

(** hash_builder.cpp:58-65 *)
Definition unpack_nibbles (packed : bytes) : bytes := concat (map (fun b => [b / 16; N.land b 15]) packed).

(** hash_builder.cpp:81-90: res[i] = (a << 4) + b, in a uint8_t. *)
Fixpoint pack_pairs (path : bytes) : bytes :=
  match path with a :: b :: t => (a * 16 + b) mod 256 :: pack_pairs t | _ => [] end.
(** hash_builder.cpp:67-93 *)
Definition encode_path (path : bytes) (terminating : bool) : bytes :=
  let odd := Nat.odd (length path) in
  let flag := match terminating, odd with false, false => 0x00 | false, true => 0x10 | true, false => 0x20 | true, true => 0x30 end in
  if odd then N.lor flag (hd 0 path) :: pack_pairs (tl path) else flag :: pack_pairs path.

Section Builder.
  Variable keccak : bytes -> bytes.

  (** hash_builder.cpp:95-105 *)
  Definition leaf_node_rlp (path value : bytes) : bytes :=
    let encoded_path := encode_path path true in
    encode_header (mkHeader true ((length_bytes encoded_path + length_bytes value) mod 2 ^ 64)) ++ encode_bytes encoded_path ++ encode_bytes value.
  (** hash_builder.cpp:107-117 *)
  Definition extension_node_rlp (path child_ref : bytes) : bytes :=
    let encoded_path := encode_path path false in
    encode_header (mkHeader true ((length_bytes encoded_path + blen child_ref) mod 2 ^ 64)) ++ encode_bytes encoded_path ++ child_ref.
  (** hash_builder.cpp:119-129 *)
  Definition node_ref (rlp : bytes) : bytes := if blen rlp <? 32 then rlp else (0x80 + 32) :: keccak rlp.

  (** std::vector::resize *)
  Definition resize (n : nat) (l : list N) : list N := firstn n l ++ repeat 0 (n - length l).
  (** v[i] = f(v[i]) *)
  Fixpoint update (i : nat) (f : N -> N) (l : list N) : option (list N) :=
    match l, i with
    | [], _ => None
    | x :: t, O => Some (f x :: t)
    | x :: t, S j => match update j f t with Some t' => Some (x :: t') | None => None end
    end.
  Definition bit (digit : N) : N := N.shiftl 1 digit mod 2 ^ 16.
  Definition digits16 : list N := [0; 1; 2; 3; 4; 5; 6; 7; 8; 9; 10; 11; 12; 13; 14; 15].
  (** The set bits of a mask, lowest first; std::bitset<16>(mask).count() is their number. *)
  Definition digits (mask : N) : list N := filter (N.testbit mask) digits16.

  (** hash_builder.cpp:285-305: the sixteen slots; None if the stack is too short. *)
  Fixpoint slots (mask : N) (ds : list N) (children : list bytes) : option (list (N * option bytes)) :=
    match ds with
    | [] => Some []
    | d :: ds' =>
      if N.testbit mask d then
        match children with
        | [] => None
        | c :: cs => match slots mask ds' cs with Some l => Some ((d, Some c) :: l) | None => None end
        end
      else match slots mask ds' children with Some l => Some ((d, None) :: l) | None => None end
    end.
  (** hash_builder.cpp:273-314: the new stack and the child hashes. *)
  Definition branch_ref (state_mask hash_mask : N) (stack : list bytes) : option (list bytes * list bytes) :=
    let count := length (digits state_mask) in
    if (length stack <? count)%nat then None
    else
      match slots state_mask digits16 (rev (firstn count stack)) with
      | None => None
      | Some sl =>
        let payload_length := fold_left (fun n e => n + match snd e with Some c => blen c | None => 1 end) sl 1 in
        let rlp := encode_header (mkHeader true (payload_length mod 2 ^ 64))
                   ++ concat (map (fun e => match snd e with Some c => c | None => [0x80] end) sl) ++ [0x80] in
        let child_hashes := concat (map (fun e => match snd e with Some c => if N.testbit hash_mask (fst e) then [c] else [] | None => [] end) sl) in
        Some (node_ref rlp :: skipn count stack, child_hashes)
      end.

  (** hash_builder.cpp:156-167 *)
  Definition stack_root (stack : list bytes) : bytes :=
    match stack with
    | [] => kEmptyRoot
    | r :: _ => if blen r =? 33 then skipn 1 r else keccak r
    end.

  (** memcpy(hashes[i].bytes, &child_hashes[i][1], 32): reads out of range unless the reference is 33 bytes long. *)
  Fixpoint unwrap (l : list bytes) : option (list bytes) :=
    match l with
    | [] => Some []
    | c :: t => if blen c =? 33 then match unwrap t with Some t' => Some (skipn 1 c :: t') | None => None end else None
    end.

  (** hash_builder.cpp:202-213 *)
  Definition extension_masks (collect : bool) (from : nat) (current : bytes) (tree hash : list N) : option (list N * list N) :=
    if collect && (0 <? from)%nat then
      let flag := bit (nth (from - 1) current 0) in
      match update (from - 1) (fun m => N.ldiff m flag) hash with
      | None => None
      | Some hash =>
        match nth_error tree (length current - 1) with
        | None => None
        | Some t => if negb (t =? 0)
                    then match update (from - 1) (fun m => N.lor m flag) tree with Some tree => Some (tree, hash) | None => None end
                    else Some (tree, hash)
        end
      end
    else Some (tree, hash).

  (** hash_builder.cpp:199-219: the leaf or extension node. *)
  Definition short_node (collect build_extensions : bool) (from : nat) (current value : bytes) (tree hash : list N) (stack : list bytes)
      : option (list N * list N * list bytes) :=
    let short_node_key := skipn from current in
    if negb build_extensions then Some (tree, hash, node_ref (leaf_node_rlp short_node_key value) :: stack)
    else
      match short_node_key with
      | [] => Some (tree, hash, stack)
      | _ =>
        match extension_masks collect from current tree hash with
        | None => None
        | Some (tree, hash) =>
          match stack with
          | [] => None
          | top :: rest => Some (resize from tree, resize from hash, node_ref (extension_node_rlp short_node_key top) :: rest)
          end
        end
      end.

  (** hash_builder.cpp:231-254: masks of the parent and the collected node. *)
  Definition collect_node (len : nat) (current : bytes) (state_mask : N) (tree hash : list N) (stack child_hashes : list bytes)
      : option (list N * list N * list (bytes * node)) :=
    let flag := bit (nth (len - 1) current 0) in
    match (if (0 <? len)%nat then update (len - 1) (fun m => N.lor m flag) hash else Some hash) with
    | None => None
    | Some hash =>
      match nth_error tree len, nth_error hash len with
      | Some t, Some h =>
        if negb (t =? 0) || negb (h =? 0) then
          match (if (0 <? len)%nat then update (len - 1) (fun m => N.lor m flag) tree else Some tree), unwrap child_hashes with
          | Some tree, Some hashes =>
            let n := mkNode state_mask t h hashes (if (len =? 0)%nat then Some (stack_root stack) else None) in
            Some (tree, hash, [(firstn len current, n)])
          | _, _ => None
          end
        else Some (tree, hash, [])
      | _, _ => None
      end
    end.

  (** hash_builder.cpp:227-255 *)
  Definition close_group (collect : bool) (len : nat) (current : bytes) (groups tree hash : list N) (stack : list bytes)
      : option (list N * list N * list bytes * list (bytes * node)) :=
    match nth_error groups len, nth_error hash len with
    | Some g, Some h =>
      match branch_ref g h stack with
      | None => None
      | Some (stack, child_hashes) =>
        if collect then
          match collect_node len current g tree hash stack child_hashes with
          | None => None
          | Some (tree, hash, out) => Some (tree, hash, stack, out)
          end
        else Some (tree, hash, stack, [])
      end
    | _, _ => None
    end.

  (** hash_builder.cpp:267-269 *)
  Fixpoint drop_zeros (rev_groups : list N) : list N :=
    match rev_groups with 0 :: t => drop_zeros t | l => l end.
  Definition pop_zeros (groups : list N) : list N := rev (drop_zeros (rev groups)).

  Definition is_empty {A} (l : list A) : bool := match l with [] => true | _ => false end.

  (** hash_builder.cpp:172-270: one iteration; the second component is the current key of the next one. *)
  Definition iteration (collect build_extensions : bool) (current succeeding value : bytes) (s : hb) : option (hb * option bytes) :=
    let groups := hb_groups s in
    let preceding_exists := negb (is_empty groups) in
    let preceding_len := pred (length groups) in
    let common_prefix_len := prefix_length succeeding current in
    let len := Nat.max preceding_len common_prefix_len in
    match nth_error current len with
    | None => None
    | Some extra_digit =>
      let groups := if (length groups <=? len)%nat then resize (S len) groups else groups in
      match update len (fun g => N.lor g (bit extra_digit)) groups with
      | None => None
      | Some groups =>
        let grow := (length (hb_tree_masks s) <? length current)%nat in
        let tree := if grow then resize (length current) (hb_tree_masks s) else hb_tree_masks s in
        let hash := if grow then resize (length current) (hb_hash_masks s) else hb_hash_masks s in
        let more := negb (is_empty succeeding) || preceding_exists in
        let from := if more then S len else len in
        match short_node collect build_extensions from current value tree hash (hb_stack s) with
        | None => None
        | Some (tree, hash, stack) =>
          if (preceding_len <=? common_prefix_len)%nat && negb (is_empty succeeding)
          then Some (mkHb (hb_key s) (hb_value s) groups tree hash stack (hb_out s), None)
          else
            match (if more then close_group collect len current groups tree hash stack else Some (tree, hash, stack, [])) with
            | None => None
            | Some (tree, hash, stack, out) =>
              let groups := resize len groups in
              let s' g := mkHb (hb_key s) (hb_value s) g (resize len tree) (resize len hash) stack (hb_out s ++ out) in
              match preceding_len with
              | O => Some (s' groups, None)
              | _ => Some (s' (pop_zeros groups), Some (firstn preceding_len current))
              end
            end
        end
      end
    end.

  (** hash_builder.cpp:171-271; [fuel] bounds the iterations. *)
  Fixpoint gen_struct_loop (fuel : nat) (collect build_extensions : bool) (current succeeding value : bytes) (s : hb) : option hb :=
    match fuel with
    | O => None
    | S f =>
      match iteration collect build_extensions current succeeding value s with
      | None => None
      | Some (s, None) => Some s
      | Some (s, Some current) => gen_struct_loop f collect true current succeeding value s
      end
    end.
  Definition gen_struct_step (collect : bool) (current succeeding value : bytes) (s : hb) : option hb :=
    gen_struct_loop (S (length current)) collect false current succeeding value s.

  (** hash_builder.cpp:131-139; the assert on the order is a precondition. *)
  Definition add (collect : bool) (packed value : bytes) (s : hb) : option hb :=
    let key := unpack_nibbles packed in
    match (if is_empty (hb_key s) then Some s else gen_struct_step collect (hb_key s) key (hb_value s) s) with
    | None => None
    | Some s => Some (mkHb key value (hb_groups s) (hb_tree_masks s) (hb_hash_masks s) (hb_stack s) (hb_out s))
    end.
  (** hash_builder.cpp:141-147 *)
  Definition finalize (collect : bool) (s : hb) : option hb :=
    if is_empty (hb_key s) then Some s
    else match gen_struct_step collect (hb_key s) [] (hb_value s) s with
         | None => None
         | Some s => Some (mkHb [] [] (hb_groups s) (hb_tree_masks s) (hb_hash_masks s) (hb_stack s) (hb_out s))
         end.
  (** hash_builder.cpp:149-168 *)
  Definition root_hash (collect : bool) (s : hb) : option (bytes * hb) :=
    match finalize collect s with Some s => Some (stack_root (hb_stack s), s) | None => None end.
  (** A client: adds entries in order and asks for the root. *)
  Fixpoint add_all (collect : bool) (entries : list (bytes * bytes)) (s : hb) : option hb :=
    match entries with
    | [] => Some s
    | (k, v) :: t => match add collect k v s with Some s => add_all collect t s | None => None end
    end.
  Definition build (collect : bool) (entries : list (bytes * bytes)) : option (bytes * list (bytes * node)) :=
    match add_all collect entries hb_new with
    | None => None
    | Some s => match root_hash collect s with Some (r, s) => Some (r, hb_out s) | None => None end
    end.

  (** vector_root.hpp:27-35 *)
  Definition adjust_index_for_rlp (i len : nat) : nat :=
    if (0x7f <? i)%nat then i else if (i =? 0x7f)%nat || (i + 1 =? len)%nat then O else S i.
  (** vector_root.hpp:39-57; [values] are the encodings of the elements. *)
  Definition vector_entries (values : list bytes) : list (bytes * bytes) :=
    map (fun j => let index := adjust_index_for_rlp j (length values) in (encode_u64 (N.of_nat index), nth index values []))
        (seq 0 (length values)).
  Definition vector_root (values : list bytes) : option bytes :=
    match build false (vector_entries values) with Some (r, _) => Some r | None => None end.
End Builder.
