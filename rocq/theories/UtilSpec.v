(** Specification of the byte/string utilities. *)
From Verif Require Import Base.

(** The character [c] is the hex digit [d], in either case. *)
Definition hex_char (c d : N) : Prop :=
  (d < 10 /\ c = 48 + d) \/ (10 <= d < 16 /\ (c = 97 + (d - 10) \/ c = 65 + (d - 10))).
Inductive hex_string : bytes -> bytes -> Prop :=
| hex_nil : hex_string [] []
| hex_cons : forall c1 c2 d1 d2 s b, hex_char c1 d1 -> hex_char c2 d2 -> hex_string s b ->
    hex_string (c1 :: c2 :: s) (16 * d1 + d2 :: b).

(** What a hex literal with optional prefix denotes. *)
Definition hex_denotes (s b : bytes) : Prop :=
  hex_string s b \/ exists t, (s = [48; 120] ++ t \/ s = [48; 88] ++ t) /\ hex_string t b.

Definition digit (c : N) : Prop := 48 <= c <= 57.
(** Value of a digit string, most significant digit first. *)
Inductive decimal : bytes -> N -> Prop :=
| decimal_nil : decimal [] 0
| decimal_snoc : forall s n d, decimal s n -> d < 10 -> decimal (s ++ [48 + d]) (10 * n + d).

(** Units, case-insensitive: "", "B", "KB", "MB", "GB", "TB". *)
Definition size_unit (u : bytes) (k : N) : Prop :=
  (k = 1 /\ (u = [] \/ In u [[66]; [98]])) \/
  (k = 2 ^ 10 /\ In u [[75; 66]; [75; 98]; [107; 66]; [107; 98]]) \/
  (k = 2 ^ 20 /\ In u [[77; 66]; [77; 98]; [109; 66]; [109; 98]]) \/
  (k = 2 ^ 30 /\ In u [[71; 66]; [71; 98]; [103; 66]; [103; 98]]) \/
  (k = 2 ^ 40 /\ In u [[84; 66]; [84; 98]; [116; 66]; [116; 98]]).

(** [size_string s n d e k]: s is "n.d unit" with e fractional digits (0 to 3) and unit factor k. *)
Definition size_string (s : bytes) (n d : N) (e : nat) (k : N) : Prop :=
  exists ip dp sp u, decimal ip n /\ decimal dp d /\ length dp = e /\ (e <= 3)%nat /\ Forall (eq 32) sp /\ size_unit u k /\
    s = ip ++ (match dp with [] => [] | _ => 46 :: dp end) ++ sp ++ u.

Fixpoint join (d : bytes) (l : list bytes) : bytes :=
  match l with [] => [] | [x] => x | x :: t => x ++ d ++ join d t end.
Definition contains (d s : bytes) : Prop := exists a r, s = a ++ d ++ r.
