From Verif Require Import Base BaseFacts RlpModel TxModel BlockModel ChainModel BlockHashModel BlockHashSpec.

Lemma sub64_le a b : b <= a -> a < 2 ^ 64 -> sub64 a b = a - b.
Proof. intros H1 H2. unfold sub64. replace (a + 2 ^ 64 - b) with (a - b + 1 * 2 ^ 64) by lia. rewrite N.mod_add by discriminate. apply N.mod_small. lia. Qed.

Section Proofs.
  Variable read_header : N -> bytes -> option block_header.
  Variable header : block_header.
  Notation anc := (ancestor read_header header).
  Notation num := (hd_number header).

  Lemma anc_step d : (1 <= d)%nat -> anc (S d) = match read_header (num - N.of_nat d) (anc d) with Some h => hd_parent_hash h | None => zeros 32 end.
  Proof. destruct d; [lia|reflexivity]. Qed.

  Definition good (hs : list bytes) : Prop := forall j, (j < length hs)%nat -> nth_error hs j = Some (anc (S j)).
  Definition stops : Prop := forall d, (1 <= d)%nat -> N.of_nat d < num -> read_header (num - N.of_nat d) (anc d) = None -> forall e, (d < e)%nat -> N.of_nat e <= num -> anc e = zeros 32.

  Lemma fill_ok (Hs : stops) k : forall i hs, (1 <= i)%nat -> length hs = (i + k)%nat -> N.of_nat (i + k) <= num -> num < 2 ^ 64 ->
    (forall j, (j < i)%nat -> nth_error hs j = Some (anc (S j))) -> (forall j, (i <= j < i + k)%nat -> nth_error hs j = Some (zeros 32)) ->
    let r := fill read_header header k (N.of_nat i) hs in length r = length hs /\ good r.
  Proof.
    induction k as [|k IH]; intros i hs Hi Hl Hn Hm Hg Hz; cbn [fill].
    - split; [reflexivity|]. intros j Hj. apply Hg. lia.
    - rewrite (sub64_le num (N.of_nat i)) by lia.
      assert (En : nth (N.to_nat (N.of_nat i - 1)) hs (zeros 32) = anc i).
      { replace (N.to_nat (N.of_nat i - 1)) with (i - 1)%nat by lia. apply nth_error_nth. rewrite Hg by lia. f_equal. f_equal. lia. }
      rewrite En. destruct (read_header (num - N.of_nat i) (anc i)) as [h|] eqn:Er.
      + replace (N.of_nat i + 1) with (N.of_nat (S i)) by lia. rewrite Nat2N.id.
        assert (Ln : length (firstn i hs ++ hd_parent_hash h :: skipn (i + 1) hs) = length hs).
        { rewrite app_length, firstn_length. cbn [length]. rewrite skipn_length. lia. }
        assert (Nth : forall j, nth_error (firstn i hs ++ hd_parent_hash h :: skipn (i + 1) hs) j = if (j =? i)%nat then Some (hd_parent_hash h) else nth_error hs j).
        { intros j. assert (Lf : length (firstn i hs) = i) by (rewrite firstn_length; lia). destruct (Nat.eqb_spec j i) as [->|Nj].
          - rewrite nth_error_app2 by lia. rewrite Lf, Nat.sub_diag. reflexivity.
          - destruct (Nat.lt_ge_cases j i) as [L|G].
            + rewrite nth_error_app1 by lia. rewrite <- (firstn_skipn i hs) at 2. rewrite nth_error_app1 by lia. reflexivity.
            + rewrite nth_error_app2 by lia. rewrite Lf. replace (j - i)%nat with (S (j - (i + 1)))%nat by lia. cbn [nth_error].
              rewrite <- (firstn_skipn (i + 1) hs) at 2. rewrite nth_error_app2 by (rewrite firstn_length; lia). f_equal. rewrite firstn_length. lia. }
        specialize (IH (S i) _ ltac:(lia) ltac:(rewrite Ln, Hl; lia) ltac:(replace (S i + k)%nat with (i + S k)%nat by lia; exact Hn) Hm
          ltac:(intros j Hj; rewrite Nth; destruct (Nat.eqb_spec j i) as [->|]; [rewrite anc_step by lia; now rewrite Er|apply Hg; lia])
          ltac:(intros j Hj; rewrite Nth; destruct (Nat.eqb_spec j i) as [->|]; [lia|apply Hz; lia])).
        cbv zeta in IH. rewrite Ln in IH. exact IH.
      + split; [reflexivity|]. intros j Hj. destruct (Nat.lt_ge_cases j i) as [L|G]; [now apply Hg|]. rewrite Hz by lia.
        f_equal. symmetry. apply (Hs i Hi ltac:(lia) Er); lia.
  Qed.

  Lemma get_ok (Hs : stops) hs n : num < 2 ^ 64 -> n < num -> num <= n + 256 -> good hs -> N.of_nat (length hs) <= num ->
    exists hs', get_block_hash read_header header hs n = Some (anc (N.to_nat (num - n)), hs') /\ good hs' /\ N.of_nat (length hs') <= num.
  Proof.
    intros Hm Hlt Hge Hg Hl. unfold get_block_hash.
    rewrite (sub64_le num n) by lia.
    destruct (N.ltb_spec 256 (num - n)) as [|_]; [lia|].
    set (hs1 := match hs with [] => [hd_parent_hash header] | _ => hs end).
    assert (G1 : good hs1) by (subst hs1; destruct hs; [intros [|j] Hj; [reflexivity|cbn in Hj; lia]|exact Hg]).
    assert (L1 : (1 <= length hs1)%nat) by (subst hs1; destruct hs; cbn; lia).
    assert (Lm : N.of_nat (length hs1) <= num) by (subst hs1; destruct hs; [cbn; lia|exact Hl]).
    cbv zeta. clearbody hs1. clear hs Hg Hl.
    set (k := N.to_nat (num - n - N.of_nat (length hs1))).
    set (hs2 := if N.of_nat (length hs1) <? num - n then _ else hs1).
    assert (E2 : hs2 = hs1 ++ repeat (zeros 32) k).
    { subst hs2 k. destruct (N.ltb_spec (N.of_nat (length hs1)) (num - n)) as [|G]; [reflexivity|]. replace (num - n - N.of_nat (length hs1)) with 0 by lia. cbn. now rewrite app_nil_r. }
    rewrite E2. clear hs2 E2.
    assert (Hk : (length hs1 + k)%nat = N.to_nat (N.max (N.of_nat (length hs1)) (num - n))) by (unfold k; lia).
    pose proof (fill_ok Hs k (length hs1) (hs1 ++ repeat (zeros 32) k) L1 ltac:(now rewrite app_length, repeat_length) ltac:(rewrite Hk; lia) Hm
      ltac:(intros j Hj; rewrite nth_error_app1 by lia; now apply G1)
      ltac:(intros j Hj; rewrite nth_error_app2 by lia; apply nth_error_repeat; lia)) as F. cbv zeta in F. destruct F as (F1 & F2).
    rewrite app_length, repeat_length in F1. set (hs3 := fill _ _ _ _ _) in *. clearbody hs3.
    destruct (num - n) as [|p] eqn:Ep; [lia|]. rewrite <- Ep in *.
    rewrite (F2 (N.to_nat (num - n - 1))) by lia. replace (S (N.to_nat (num - n - 1))) with (N.to_nat (num - n)) by lia.
    exists hs3. split; [reflexivity|]. split; [exact F2|lia].
  Qed.

  Lemma queries_ok (Hs : stops) ns : num < 2 ^ 64 -> (forall n, In n ns -> n < num <= n + 256) -> forall hs, good hs -> N.of_nat (length hs) <= num ->
    queries read_header header hs ns = Some (map (fun n => anc (N.to_nat (num - n))) ns).
  Proof.
    intros Hm. induction ns as [|n t IH]; intros Hr hs Hg Hl; [reflexivity|]. cbn [queries map].
    destruct (get_ok Hs hs n Hm (proj1 (Hr n ltac:(now left))) (proj2 (Hr n ltac:(now left))) Hg Hl) as (hs' & -> & G' & L').
    rewrite IH; auto. intros m Hi. apply Hr. now right.
  Qed.

  (** Any sequence of queries for the 256 most recent ancestors; no header has the hash zero. *)
  Theorem blockhash_any ns : num < 2 ^ 64 -> (forall m, read_header m (zeros 32) = None) -> (forall n, In n ns -> n < num <= n + 256) ->
    queries read_header header [] ns = Some (map (fun n => anc (N.to_nat (num - n))) ns).
  Proof.
    intros Hm Hz Hr. apply queries_ok; auto; [|intros j Hj; cbn in Hj; lia|cbn; lia].
    intros d Hd _ He e. induction e as [|e IH]; [lia|]. intros L Le. rewrite anc_step by lia.
    destruct (Nat.eq_dec e d) as [->|Ne]; [now rewrite He|]. rewrite IH by lia. now rewrite Hz.
  Qed.

  Theorem blockhash_chain hash c ns : num < 2 ^ 64 -> linked hash read_header c num -> c num = header -> (forall n, In n ns -> n < num <= n + 256) ->
    queries read_header header [] ns = Some (map (fun n => hash (c n)) ns).
  Proof.
    intros Hm (Hn & Hp & Hrd) Hc Hr.
    assert (A : forall d, N.of_nat (S d) <= num -> anc (S d) = hash (c (num - N.of_nat (S d)))).
    { induction d as [|d IH]; intros Hd.
      - cbn [ancestor]. rewrite <- Hc at 1. rewrite <- Hp by lia. f_equal. f_equal. lia.
      - rewrite anc_step by lia. rewrite IH by lia. rewrite Hrd by lia.
        replace (num - N.of_nat (S d)) with (num - N.of_nat (S (S d)) + 1) by lia. apply Hp. lia. }
    rewrite queries_ok; auto; [|
      |intros j Hj; cbn in Hj; lia|cbn; lia].
    - f_equal. apply map_ext_in. intros n Hi. specialize (Hr n Hi). replace (N.to_nat (num - n)) with (S (N.to_nat (num - n - 1))) by lia. rewrite A by lia. f_equal. f_equal. lia.
    - intros d Hd Hl He. exfalso. destruct d as [|d]; [lia|]. rewrite A in He by lia. rewrite Hrd in He by lia. discriminate.
  Qed.
End Proofs.
