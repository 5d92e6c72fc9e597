(** Proofs about db::Buffer: reads over every history. *)
From stdpp Require Import gmap sorting.
From Verif Require Import Base BaseFacts RlpModel TypesModel TypesSpec UtilModel DbTable DbModel DbSpec DbProofs BufferModel BufferSpec.

Lemma account_eqb_spec x y : reflect (x = y) (account_eqb x y).
Proof.
  unfold account_eqb. destruct x as [n1 b1 h1 i1], y as [n2 b2 h2 i2]; cbn.
  destruct (N.eqb_spec n1 n2) as [ -> |]; cbn; [|constructor; congruence]. destruct (N.eqb_spec b1 b2) as [ -> |]; cbn; [|constructor; congruence].
  destruct (eqb_spec h1 h2) as [ -> |]; cbn; [|constructor; congruence]. destruct (N.eqb_spec i1 i2) as [ -> |]; constructor; congruence.
Qed.
Lemma opt_account_eqb_spec x y : reflect (x = y) (opt_account_eqb x y).
Proof. destruct x as [x|], y as [y|]; cbn; try (constructor; congruence). destruct (account_eqb_spec x y); constructor; congruence. Qed.

Section Reads.
  Variable bm_read : bytes -> bitmap.
  Variable d : database.
  Variable hist : option N.
  Notation racc := (buf_read_account bm_read d hist).
  Notation rsto := (buf_read_storage bm_read d hist).

  Lemma update_account_reads b a i c : racc b a = Done i ->
    (forall x, racc (update_account b a i c) x = if x =? a then Done c else racc b x)
    /\ b_storage (update_account b a i c) = b_storage b /\ b_code (update_account b a i c) = b_code b
    /\ (forall x, b_incarnations (update_account b a i c) !! x =
          match i, c with Some i, None => if (x =? a) && negb (a_incarnation i =? 0) then Some (a_incarnation i) else b_incarnations b !! x | _, _ => b_incarnations b !! x end).
  Proof.
    intros H. unfold update_account. destruct (opt_account_eqb_spec c i) as [ -> |N].
    - assert (E : forall b', b_accounts b' = b_accounts b -> forall x, racc b' x = if x =? a then Done i else racc b x).
      { intros b' E x. unfold buf_read_account in *. rewrite E. destruct (N.eqb_spec x a) as [ -> |]; [exact H|reflexivity]. }
      destruct i as [i|]; cbn [andb negb]; [destruct (bool_decide (a ∈ b_changed b)); cbn [negb]|]; (split; [now apply E|]; repeat split).
    - cbn [andb]. split; [|split; [reflexivity|split; [reflexivity|]]].
      + intros x. unfold buf_read_account. cbn [b_accounts]. destruct (N.eqb_spec x a) as [ -> |Ne]; [now rewrite lookup_insert|]. now rewrite lookup_insert_ne by congruence.
      + intros x. cbn [b_incarnations]. destruct i as [i|]; [|reflexivity]. destruct c as [c|]; cbn [andb]; [reflexivity|].
        destruct (N.eqb_spec (a_incarnation i) 0) as [E|E]; cbn [negb].
        * rewrite andb_false_r. rewrite E. reflexivity.
        * rewrite andb_true_r. destruct (N.ltb_spec 0 (a_incarnation i)); [|lia]. destruct (N.eqb_spec x a) as [ -> |Ne]; [now rewrite lookup_insert|]. now rewrite lookup_insert_ne by congruence.
  Qed.
  Lemma update_storage_reads b a i l v w : rsto b a i l = Done v ->
    (forall x j k, rsto (update_storage b a i l v w) x j k = if (a =? x) && (i =? j) && (l =? k) then Done w else rsto b x j k)
    /\ b_accounts (update_storage b a i l v w) = b_accounts b /\ b_code (update_storage b a i l v w) = b_code b /\ b_incarnations (update_storage b a i l v w) = b_incarnations b.
  Proof.
    intros H. unfold update_storage. destruct (N.eqb_spec w v) as [ -> |N].
    - split; [|repeat split]. intros x j k. destruct (N.eqb_spec a x) as [ -> |]; cbn [andb]; [|reflexivity]. destruct (N.eqb_spec i j) as [ -> |]; cbn [andb]; [|reflexivity]. destruct (N.eqb_spec l k) as [ -> |]; [exact H|reflexivity].
    - split; [|repeat split]. intros x j k. unfold buf_read_storage. cbn [b_storage].
      destruct (N.eqb_spec a x) as [ -> |N1]; cbn [andb]; [|rewrite lookup_insert_ne by congruence; reflexivity]. destruct (N.eqb_spec i j) as [ -> |]; cbn [andb]; [|rewrite lookup_insert_ne by congruence; reflexivity].
      destruct (N.eqb_spec l k) as [ -> |]; [now rewrite lookup_insert|rewrite lookup_insert_ne by congruence; reflexivity].
  Qed.

  Lemma reads_history ops : forall b, honest bm_read d hist b ops ->
    (forall a, racc (buf_run b ops) a = last_account ops a (racc b a))
    /\ (forall a i l, rsto (buf_run b ops) a i l = last_storage ops a i l (rsto b a i l))
    /\ (forall h, buf_read_code d (buf_run b ops) h = last_code ops h (buf_read_code d b h))
    /\ (forall a, buf_previous_incarnation d hist (buf_run b ops) a = last_destroyed ops a (buf_previous_incarnation d hist b a)).
  Proof.
    induction ops as [|o ops IH]; intros b; [intros _; repeat split|]. cbn [honest buf_run fold_left]. intros (Ho & Hr). destruct (IH _ Hr) as (A1 & A2 & A3 & A4). unfold buf_run in *.
    destruct o as [n|a i c|a inc h code|a inc l i c]; cbn [buf_step honest_op last_account last_storage last_code last_destroyed] in *.
    - split; [exact A1|]. split; [exact A2|]. split; [exact A3|exact A4].
    - destruct (update_account_reads b a i c Ho) as (E1 & E2 & E3 & E4). split; [|split; [|split]].
      + intros x. rewrite A1, E1. f_equal. rewrite N.eqb_sym. reflexivity.
      + intros x j k. rewrite A2. f_equal. unfold buf_read_storage. now rewrite E2.
      + intros x. rewrite A3. f_equal. unfold buf_read_code. now rewrite E3.
      + intros x. rewrite A4. destruct i as [i|], c as [c|]; f_equal; unfold buf_previous_incarnation; rewrite E4; try reflexivity. rewrite (N.eqb_sym a x). destruct ((x =? a) && negb (a_incarnation i =? 0)); reflexivity.
    - split; [exact A1|]. split; [exact A2|]. split; [|exact A4]. intros x. rewrite A3. f_equal. unfold buf_read_code, update_account_code. cbn [b_code]. destruct (eqb_spec h x) as [ -> |N]; [now rewrite lookup_insert|]. now rewrite lookup_insert_ne by congruence.
    - destruct (update_storage_reads b a inc l i c Ho) as (E1 & E2 & E3 & E4). split; [|split; [|split]].
      + intros x. rewrite A1. f_equal. unfold buf_read_account. now rewrite E2.
      + intros x j k. rewrite A2, E1. reflexivity.
      + intros x. rewrite A3. f_equal. unfold buf_read_code. now rewrite E3.
      + intros x. rewrite A4. f_equal. unfold buf_previous_incarnation. now rewrite E4.
  Qed.
End Reads.

(** Reading from an empty buffer is reading from the database. *)
Lemma empty_reads bm_read d hist :
  (forall a, buf_read_account bm_read d hist buf_empty a = read_account bm_read d a hist)
  /\ (forall a i l, buf_read_storage bm_read d hist buf_empty a i l = read_storage bm_read d a i l hist)
  /\ (forall h, buf_read_code d buf_empty h = default [] (read_code d h)).
Proof. repeat split. Qed.
