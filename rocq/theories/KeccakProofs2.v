(** Each of the two unrolled rounds, and Keccak-f[1600]. *)
From Verif Require Import Base BaseFacts KeccakSpec KeccakModel KeccakProofs.

Lemma holds_25 s A : holds s A -> exists Aba Abe Abi Abo Abu Aga Age Agi Ago Agu Aka Ake Aki Ako Aku Ama Ame Ami Amo Amu Asa Ase Asi Aso Asu,
  s = [Aba; Abe; Abi; Abo; Abu; Aga; Age; Agi; Ago; Agu; Aka; Ake; Aki; Ako; Aku; Ama; Ame; Ami; Amo; Amu; Asa; Ase; Asi; Aso; Asu] /\
  lane Aba (A 0 0)%nat /\ lane Abe (A 1 0)%nat /\ lane Abi (A 2 0)%nat /\ lane Abo (A 3 0)%nat /\ lane Abu (A 4 0)%nat /\
  lane Aga (A 0 1)%nat /\ lane Age (A 1 1)%nat /\ lane Agi (A 2 1)%nat /\ lane Ago (A 3 1)%nat /\ lane Agu (A 4 1)%nat /\
  lane Aka (A 0 2)%nat /\ lane Ake (A 1 2)%nat /\ lane Aki (A 2 2)%nat /\ lane Ako (A 3 2)%nat /\ lane Aku (A 4 2)%nat /\
  lane Ama (A 0 3)%nat /\ lane Ame (A 1 3)%nat /\ lane Ami (A 2 3)%nat /\ lane Amo (A 3 3)%nat /\ lane Amu (A 4 3)%nat /\
  lane Asa (A 0 4)%nat /\ lane Ase (A 1 4)%nat /\ lane Asi (A 2 4)%nat /\ lane Aso (A 3 4)%nat /\ lane Asu (A 4 4)%nat.
Proof.
  intros [L H].
  do 25 (destruct s as [|? s]; [discriminate L|]). destruct s; [|discriminate L].
  do 25 eexists. split; [reflexivity|].
  assert (K : forall x y, (x < 5)%nat -> (y < 5)%nat -> lane (nth (5 * y + x) [n; n0; n1; n2; n3; n4; n5; n6; n7; n8; n9; n10; n11; n12; n13; n14; n15; n16; n17; n18; n19; n20; n21; n22; n23] 0) (A x y)) by exact H.
  repeat match goal with |- _ /\ _ => split end.
  all: match goal with |- lane _ (_ ?x ?y) => apply (K x y); lia end.
Qed.

Ltac lane_hyp :=
  match goal with
  | |- lane ?a (?A ?x ?y) =>
    let x' := eval cbv in x in let y' := eval cbv in y in change (lane a (A x' y')); assumption
  end.
Ltac lane_column :=
  match goal with
  | |- lane ?a (theta_C ?A ?x) => let x' := eval cbv in x in change (lane a (theta_C A x')); apply column; lane_hyp
  end.
Ltac lane_effect :=
  match goal with
  | |- lane ?a (theta_D ?A ?x) => let x' := eval cbv in x in change (lane a (theta_D A x')); assumption
  end.
Ltac lane_moved :=
  first [ apply unmoved; [lane_hyp|lane_effect]
        | apply moved; [reflexivity|reflexivity|reflexivity|lane_hyp|lane_effect] ].

Ltac one_round IR :=
  match goal with
  | H : holds ?s ?A |- _ =>
    destruct (holds_25 s A H) as (Aba & Abe & Abi & Abo & Abu & Aga & Age & Agi & Ago & Agu & Aka & Ake & Aki & Ako & Aku &
      Ama & Ame & Ami & Amo & Amu & Asa & Ase & Asi & Aso & Asu & -> & Hba & Hbe & Hbi & Hbo & Hbu & Hga & Hge & Hgi & Hgo & Hgu &
      Hka & Hke & Hki & Hko & Hku & Hma & Hme & Hmi & Hmo & Hmu & Hsa & Hse & Hsi & Hso & Hsu); clear H
  end.

Lemma round_A_E_ok n s A : (n < 24)%nat -> holds s A -> holds (round_A_E n s) (round n A).
Proof.
  intros IR H. one_round IR. unfold round_A_E. cbv beta iota.
  cbv zeta.
  assert (Ca : lane ((((Aba ^^ Aga) ^^ Aka) ^^ Ama) ^^ Asa) (theta_C A 0)) by lane_column.
  assert (Ce : lane ((((Abe ^^ Age) ^^ Ake) ^^ Ame) ^^ Ase) (theta_C A 1)) by lane_column.
  assert (Ci : lane ((((Abi ^^ Agi) ^^ Aki) ^^ Ami) ^^ Asi) (theta_C A 2)) by lane_column.
  assert (Co : lane ((((Abo ^^ Ago) ^^ Ako) ^^ Amo) ^^ Aso) (theta_C A 3)) by lane_column.
  assert (Cu : lane ((((Abu ^^ Agu) ^^ Aku) ^^ Amu) ^^ Asu) (theta_C A 4)) by lane_column.
  generalize dependent ((((Aba ^^ Aga) ^^ Aka) ^^ Ama) ^^ Asa); intros Ba Ca.
  generalize dependent ((((Abe ^^ Age) ^^ Ake) ^^ Ame) ^^ Ase); intros Be Ce.
  generalize dependent ((((Abi ^^ Agi) ^^ Aki) ^^ Ami) ^^ Asi); intros Bi Ci.
  generalize dependent ((((Abo ^^ Ago) ^^ Ako) ^^ Amo) ^^ Aso); intros Bo Co.
  generalize dependent ((((Abu ^^ Agu) ^^ Aku) ^^ Amu) ^^ Asu); intros Bu Cu.
  assert (Da : lane (Bu ^^ rotl_64 Be 1) (theta_D A 0)) by (apply effect; assumption).
  assert (De : lane (Ba ^^ rotl_64 Bi 1) (theta_D A 1)) by (apply effect; assumption).
  assert (Di : lane (Be ^^ rotl_64 Bo 1) (theta_D A 2)) by (apply effect; assumption).
  assert (Do : lane (Bi ^^ rotl_64 Bu 1) (theta_D A 3)) by (apply effect; assumption).
  assert (Du : lane (Bo ^^ rotl_64 Ba 1) (theta_D A 4)) by (apply effect; assumption).
  split; [reflexivity|]. intros x y X Y.
  destruct (five x X) as [->|[->|[->|[->| ->]]]], (five y Y) as [->|[->|[->|[->| ->]]]];
    cbn [nth Nat.add Nat.mul].
  all: first [ apply chi_lane0; [exact IR|lane_moved|lane_moved|lane_moved]
             | apply chi_lane; [lia|lane_moved|lane_moved|lane_moved] ].
Qed.

Lemma round_E_A_ok n s A : (n + 1 < 24)%nat -> holds s A -> holds (round_E_A n s) (round (n + 1) A).
Proof.
  intros IR H. one_round IR. unfold round_E_A. cbv beta iota.
  cbv zeta.
  assert (Ca : lane ((((Aba ^^ Aga) ^^ Aka) ^^ Ama) ^^ Asa) (theta_C A 0)) by lane_column.
  assert (Ce : lane ((((Abe ^^ Age) ^^ Ake) ^^ Ame) ^^ Ase) (theta_C A 1)) by lane_column.
  assert (Ci : lane ((((Abi ^^ Agi) ^^ Aki) ^^ Ami) ^^ Asi) (theta_C A 2)) by lane_column.
  assert (Co : lane ((((Abo ^^ Ago) ^^ Ako) ^^ Amo) ^^ Aso) (theta_C A 3)) by lane_column.
  assert (Cu : lane ((((Abu ^^ Agu) ^^ Aku) ^^ Amu) ^^ Asu) (theta_C A 4)) by lane_column.
  generalize dependent ((((Aba ^^ Aga) ^^ Aka) ^^ Ama) ^^ Asa); intros Ba Ca.
  generalize dependent ((((Abe ^^ Age) ^^ Ake) ^^ Ame) ^^ Ase); intros Be Ce.
  generalize dependent ((((Abi ^^ Agi) ^^ Aki) ^^ Ami) ^^ Asi); intros Bi Ci.
  generalize dependent ((((Abo ^^ Ago) ^^ Ako) ^^ Amo) ^^ Aso); intros Bo Co.
  generalize dependent ((((Abu ^^ Agu) ^^ Aku) ^^ Amu) ^^ Asu); intros Bu Cu.
  assert (Da : lane (Bu ^^ rotl_64 Be 1) (theta_D A 0)) by (apply effect; assumption).
  assert (De : lane (Ba ^^ rotl_64 Bi 1) (theta_D A 1)) by (apply effect; assumption).
  assert (Di : lane (Be ^^ rotl_64 Bo 1) (theta_D A 2)) by (apply effect; assumption).
  assert (Do : lane (Bi ^^ rotl_64 Bu 1) (theta_D A 3)) by (apply effect; assumption).
  assert (Du : lane (Bo ^^ rotl_64 Ba 1) (theta_D A 4)) by (apply effect; assumption).
  split; [reflexivity|]. intros x y X Y.
  destruct (five x X) as [->|[->|[->|[->| ->]]]], (five y Y) as [->|[->|[->|[->| ->]]]];
    cbn [nth Nat.add Nat.mul].
  all: first [ apply chi_lane0; [exact IR|lane_moved|lane_moved|lane_moved]
             | apply chi_lane; [lia|lane_moved|lane_moved|lane_moved] ].
Qed.

Lemma rounds_S n A : rounds (S n) A = round n (rounds n A).
Proof. reflexivity. Qed.

Lemma keccakf_from_ok count : forall n s A, (n + 2 * count <= 24)%nat -> holds s (rounds n A) ->
  holds (keccakf_from count n s) (rounds (n + 2 * count) A).
Proof.
  induction count as [|c IH]; intros n s A Le H; cbn [keccakf_from].
  - replace (n + 2 * 0)%nat with n by lia. exact H.
  - replace (n + 2 * S c)%nat with (n + 2 + 2 * c)%nat by lia. apply IH; [lia|].
    replace (n + 2)%nat with (S (S n)) by lia. rewrite 2!rounds_S.
    replace (S n) with (n + 1)%nat by lia. apply round_E_A_ok; [lia|]. apply round_A_E_ok; [lia|exact H].
Qed.

Lemma keccakf_ok s A : holds s A -> holds (keccakf1600 s) (keccak_f A).
Proof. intros H. exact (keccakf_from_ok 12 0 s A (le_n 24) H). Qed.
