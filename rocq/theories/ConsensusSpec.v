(** What a file of the consensus tests says, read without the program. *)
From stdpp Require Import gmap.
From Verif Require Import Base TypesModel UtilSpec.

(** An account in the sections "pre" and "postState": strings, as they are in the file. *)
Record json_account := mkJson { j_balance : bytes; j_nonce : bytes; j_code : bytes; j_storage : list (bytes * bytes) }.

(** A string of hexadecimal digits and the number of up to [n] bytes it stands for. *)
Definition says_number (n : nat) (s : bytes) (x : N) : Prop := exists b, hex_denotes s b /\ (length b <= n)%nat /\ x = be_to_N b.
Definition says_address (s : bytes) (a : N) : Prop := exists b, hex_denotes s b /\ length b = 20%nat /\ a = be_to_N b.
(** The strings stand for values that are all different. *)
Definition distinct (says : bytes -> N -> Prop) (l : list bytes) : Prop := exists xs, Forall2 says l xs /\ List.NoDup xs.

(** A section of a file is as it should be: hexadecimal numbers that are not too long, each address and each location once, and no slot of zero. *)
Definition account_ok (e : json_account) : Prop :=
  (exists x, says_number 32 (j_balance e) x) /\ (exists x, says_number 8 (j_nonce e) x) /\ (exists b, hex_denotes (j_code e) b)
  /\ distinct (says_number 32) (map fst (j_storage e)) /\ forall s v, In (s, v) (j_storage e) -> exists w, says_number 32 v w /\ w <> 0.
Definition section_ok (l : list (bytes * json_account)) : Prop :=
  distinct says_address (map fst l) /\ forall s e, In (s, e) l -> account_ok e.

(** A state, given by what can be read from it, is the one a section describes. *)
Record readable := mkReadable { r_account : N -> option account; r_code : bytes -> bytes; r_slot : N -> N -> N -> N (* address, incarnation, location *) }.
Definition account_described (r : readable) (a : N) (e : json_account) : Prop :=
  exists acc, r_account r a = Some acc /\ says_number 32 (j_balance e) (a_balance acc) /\ says_number 8 (j_nonce e) (a_nonce acc)
    /\ hex_denotes (j_code e) (r_code r (a_code_hash acc))
    /\ (forall s v l w, In (s, v) (j_storage e) -> says_number 32 s l -> says_number 32 v w -> r_slot r a (a_incarnation acc) l = w)
    /\ (forall l, r_slot r a (a_incarnation acc) l <> 0 -> exists s v, In (s, v) (j_storage e) /\ says_number 32 s l).
Definition state_described (r : readable) (l : list (bytes * json_account)) : Prop :=
  (forall s e a, In (s, e) l -> says_address s a -> account_described r a e)
  /\ forall a, r_account r a <> None -> exists s e, In (s, e) l /\ says_address s a.

(** How many of the tests of a run failed, given how each test of each file ended; a file that cannot be parsed has none. *)
Inductive ending := Passes | Fails | Skips.
Definition ending_dec (x y : ending) : {x = y} + {x <> y}. Proof. decide equality. Defined.
Definition failures (files : list (option (list ending))) : N := N.of_nat (count_occ ending_dec (concat (map (default []) files)) Fails).
