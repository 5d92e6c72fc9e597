From stdpp Require Import gmap.
From Coq Require Import ZArith.
From Verif Require Import Base BaseFacts ChainModel TypesModel StateModel JournalProofs EvmModel EvmSpec EvmProofs EvmLemmas RefundSpec.

Fixpoint act_ind' (P : act -> Prop) (HW : forall a k v, P (Write a k v)) (HF : forall kept body, List.Forall P body -> P (Frame kept body)) (x : act) : P x :=
  match x with
  | Write a k v => HW a k v
  | Frame kept body => HF kept body ((fix go (l : list act) : List.Forall P l := match l with [] => @List.Forall_nil _ P | y :: t => @List.Forall_cons _ P y t (act_ind' P HW HF y) (go t) end) body)
  end.

Section Refund.
  Variable db : db_reader.
  Variable rev : N.
  Variable orig : N -> N -> N.

  Definition weight : Z := match schedule rev with Some (c, _, _) => c | None => 0%Z end.
  Definition cleared (c : N -> N -> N) (p : N * N) : bool := negb (orig (fst p) (snd p) =? 0) && (c (fst p) (snd p) =? 0).
  Definition pot (c : N -> N -> N) (r : Z) : Prop := (0 <= r)%Z /\ forall l : list (N * N), List.NoDup l -> (forall p, In p l -> cleared c p = true) -> (weight * Z.of_nat (length l) <= r)%Z.

  Lemma pot_ext c c' r : (forall a k, c a k = c' a k) -> pot c r -> pot c' r.
  Proof. intros E (A & B). split; [exact A|]. intros l Hn Hl. apply B; [exact Hn|]. intros p Hp. unfold cleared. rewrite E. now apply Hl. Qed.

  Lemma schedule_cases : (schedule rev = None /\ ((EVMC_ISTANBUL <=? rev) || (rev =? EVMC_CONSTANTINOPLE)) = false)
    \/ (exists sl rs, ((EVMC_ISTANBUL <=? rev) || (rev =? EVMC_CONSTANTINOPLE)) = true /\ sload_cost rev = sl /\ sstore_reset_gas rev = rs /\ sl <= rs /\ sl <= 20000
        /\ schedule rev = Some (Z.of_N (sstore_clears_refund rev), Z.of_N (20000 - sl), Z.of_N (rs - sl)) /\ 0 < sstore_clears_refund rev <= 15000 /\ rs - sl <= 5000).
  Proof.
    unfold schedule, sload_cost, sstore_clears_refund, sstore_reset_gas. rewrite !N.leb_antisym. unfold EVMC_CONSTANTINOPLE, EVMC_ISTANBUL, EVMC_BERLIN, EVMC_LONDON.
    destruct (N.eqb_spec rev 5) as [->|E].
    - right. do 2 eexists. vm_compute. repeat split; discriminate || reflexivity.
    - destruct (N.ltb_spec rev 7) as [L7|L7]; [left; split; reflexivity|]. right. cbn [negb orb].
      destruct (N.ltb_spec rev 8) as [L8|L8]; [destruct (N.ltb_spec rev 9) as [L9|L9]; [|lia]|destruct (N.ltb_spec rev 9) as [L9|L9]]; cbn [negb];
        do 2 eexists; (split; [reflexivity|]); (split; [reflexivity|]); (split; [reflexivity|]); vm_compute; repeat split; discriminate || reflexivity.
  Qed.
  Lemma weight_pos : (0 <= weight)%Z.
  Proof. unfold weight. destruct schedule_cases as [(-> & _)|(sl & rs & _ & _ & _ & _ & _ & -> & _)]; lia. Qed.

  (** One write of the specification *)
  Lemma sstore_pot c r a k v t d : pot c r -> sstore rev (orig a k) (c a k) v = (t, d) ->
    pot (update c a k v) (r + d) /\ (d <= 20000)%Z.
  Proof.
    intros (Hr & Hp) E. pose proof weight_pos as W.
    assert (Rem : forall l, List.NoDup l -> (forall p, In p l -> cleared (update c a k v) p = true) ->
      exists l', List.NoDup l' /\ (forall p, In p l' -> cleared c p = true) /\ ~ In (a, k) l' /\
        (length l <= length l' + if (negb (orig a k =? 0) && (v =? 0))%N then 1 else 0)%nat).
    { intros l Hn Hl. exists (List.filter (fun p => negb ((fst p =? a) && (snd p =? k))) l).
      split; [now apply List.NoDup_filter|]. split; [|split].
      - intros p Hi. apply filter_In in Hi as (Hi & Hne). specialize (Hl p Hi). unfold cleared, update in *. apply negb_true_iff in Hne. now rewrite Hne in Hl.
      - intros Hi. apply filter_In in Hi as (_ & Hne). cbn in Hne. now rewrite !N.eqb_refl in Hne.
      - clear Hp Hr E. induction l as [|p l IH]; [cbn; lia|]. apply List.NoDup_cons_iff in Hn as (Np & Hn). cbn [List.filter].
        destruct (negb ((fst p =? a) && (snd p =? k))) eqn:Ep.
        + cbn [length]. specialize (IH Hn ltac:(intros q Hq; apply Hl; now right)). lia.
        + apply negb_false_iff, andb_true_iff in Ep as (E1 & E2). apply N.eqb_eq in E1, E2. destruct p as [pa pk]. cbn in E1, E2. subst pa pk.
          assert (Hc : cleared (update c a k v) (a, k) = true) by (apply Hl; now left). unfold cleared, update in Hc. cbn in Hc. rewrite !N.eqb_refl in Hc. cbn in Hc. rewrite Hc.
          assert (Ef : List.filter (fun p => negb ((fst p =? a) && (snd p =? k))) l = l).
          { clear - Np. induction l as [|q l IH]; [reflexivity|]. cbn. destruct q as [qa qk]. cbn. destruct (N.eqb_spec qa a) as [->|]; [destruct (N.eqb_spec qk k) as [->|]; [exfalso; apply Np; now left|]|]; cbn; rewrite IH; auto; intros X; apply Np; now right. }
          rewrite Ef. cbn. lia. }
    unfold sstore in E. destruct (N.eqb_spec (c a k) v) as [Ecv|Ecv].
    { injection E as <- <-. split; [|lia]. rewrite Z.add_0_r. apply pot_ext with c; [|split; assumption]. intros x y. unfold update. destruct (N.eqb_spec x a) as [->|]; [destruct (N.eqb_spec y k) as [->|]; [exact Ecv|reflexivity]|reflexivity]. }
    (* the slot itself may have been counted before *)
    assert (Cnt : forall l', List.NoDup l' -> (forall p, In p l' -> cleared c p = true) -> ~ In (a, k) l' -> (weight * Z.of_nat (length l') + (if (negb (orig a k =? 0) && (c a k =? 0))%N then weight else 0) <= r)%Z).
    { intros l' Hn Hl Ni. destruct (negb (orig a k =? 0) && (c a k =? 0)) eqn:Ec.
      - pose proof (Hp ((a, k) :: l') ltac:(now apply List.NoDup_cons) ltac:(intros p [<-|Hi]; [exact Ec|now apply Hl])) as H. cbn [length] in H. lia.
      - pose proof (Hp l' Hn Hl). lia. }
    assert (Fin : forall d0, (d0 <= 20000)%Z -> (weight * (if (negb (orig a k =? 0) && (v =? 0))%N then 1 else 0) - (if (negb (orig a k =? 0) && (c a k =? 0))%N then weight else 0) <= d0)%Z -> pot (update c a k v) (r + d0) /\ (d0 <= 20000)%Z).
    { intros d0 Hd Hw. split; [|exact Hd]. pose proof (Cnt [] ltac:(constructor) ltac:(intros ? []) ltac:(intros [])) as C0. cbn [length] in C0. split.
      - destruct (negb (orig a k =? 0) && (v =? 0)); destruct (negb (orig a k =? 0) && (c a k =? 0)); lia.
      - intros l Hn Hl. destruct (Rem l Hn Hl) as (l' & A & B & C & D). pose proof (Cnt l' A B C) as G.
        destruct (negb (orig a k =? 0) && (v =? 0)); destruct (negb (orig a k =? 0) && (c a k =? 0)); nia. }
    unfold weight in *. destruct schedule_cases as [(Es & _)|(sl & rs & _ & _ & _ & L1 & L2 & Es & (L3 & L4) & L5)]; rewrite Es in *.
    - destruct (c a k =? 0); [|destruct (v =? 0)]; injection E as <- <-; apply Fin; try lia; repeat destruct (_ && _); lia.
    - destruct (N.eqb_spec (c a k) (orig a k)) as [Eo|Eo].
      + destruct (N.eqb_spec (orig a k) 0) as [E0|E0]; cbn [negb andb] in *.
        * injection E as <- <-. apply Fin; lia.
        * destruct (N.eqb_spec (c a k) 0) as [|_]; [congruence|]. destruct (v =? 0); injection E as <- <-; apply Fin; lia.
      + destruct (N.eqb_spec (orig a k) 0) as [E0|E0]; cbn [negb andb] in *.
        * injection E as <- <-. destruct (v =? orig a k); apply Fin; lia.
        * destruct (N.eqb_spec v (orig a k)) as [Evo|Evo].
          -- destruct (N.eqb_spec v 0) as [|_]; [congruence|]. destruct (c a k =? 0); injection E as <- <-; apply Fin; lia.
          -- destruct (N.eqb_spec v 0) as [Ev|Ev]; destruct (N.eqb_spec (c a k) 0) as [Ec|Ec]; try congruence; injection E as <- <-; apply Fin; lia.
  Qed.

  (** One write of the host *)
  Definition tracks (s : ibs) (c : N -> N -> N) (r : Z) : Prop :=
    (forall a k, live db s a -> currentv db s a k = c a k /\ originalv db s a k = orig a k) /\ Z.of_N (refund s) = r.
  Lemma add_refund_val s n : refund s + n < 2 ^ 64 -> refund (add_refund s n) = refund s + n.
  Proof. intros H. cbn. now apply N.mod_small. Qed.
  Lemma sub_refund_val s n : n <= refund s -> refund s < 2 ^ 64 -> refund (subtract_refund s n) = refund s - n.
  Proof. intros H H2. cbn. replace (refund s + 2 ^ 64 - n) with (refund s - n + 1 * 2 ^ 64) by lia. rewrite N.mod_add by discriminate. apply N.mod_small. lia. Qed.

  Lemma write_ok s c r a k v t s' : live db s a -> tracks s c r -> pot c r -> (r + 20000 < 2 ^ 64)%Z ->
    host_set_storage db rev s a k v = (t, s') ->
    exists d, sstore rev (orig a k) (c a k) v = (t, d) /\ tracks s' (update c a k v) (r + d) /\ ev db s s'.
  Proof.
    intros Hl (Ht & Hr) (Hr0 & Hp) Hb. unfold host_set_storage, get_current_storage.
    destruct (get_storage db s a k false) as [c0 s1] eqn:E1. destruct (get_storage_quiet _ _ _ _ _ _ _ E1) as ((X1 & Q1 & Rf1 & _) & V1 & _). specialize (V1 Hl). cbn in V1.
    assert (Ec : c0 = c a k) by (rewrite V1; now apply Ht). clear V1. subst c0.
    assert (Hl1 : live db s1 a) by (apply X1; exact Hl).
    assert (Hback : forall x, live db s1 x -> live db s x) by (intros x; unfold live; now rewrite (same_obj _ _ _ Q1)).
    unfold sstore. destruct (N.eqb_spec (c a k) v) as [Ecv|Ecv].
    { intros [= <- <-]. exists 0%Z. split; [reflexivity|]. split; [|exact X1]. split; [|rewrite Rf1; lia]. intros x y Hx. apply Hback in Hx.
      rewrite (same_cur _ _ _ Q1), (same_orig _ _ _ Q1). destruct (Ht x y Hx) as (A & B). split; [|exact B]. rewrite A. unfold update.
      destruct (N.eqb_spec x a) as [->|]; [destruct (N.eqb_spec y k) as [->|]|]; [exact Ecv|reflexivity|reflexivity]. }
    destruct (set_storage_ev db s1 a k v Hl1) as (X2 & O2 & Rf2 & C2 & G2). set (s2 := set_storage db s1 a k v) in *.
    assert (Hl2 : live db s2 a) by (apply X2; exact Hl1).
    assert (T2 : forall x y, live db s2 x -> currentv db s2 x y = update c a k v x y /\ originalv db s2 x y = orig x y).
    { intros x y Hx. assert (Hx' : live db s x) by (apply Hback; unfold live in *; now rewrite <- O2). rewrite C2, G2, (same_cur _ _ _ Q1), (same_orig _ _ _ Q1). destruct (Ht x y Hx') as (A & B). split; [|exact B].
      unfold update. destruct (decide (x = a /\ y = k)) as [(-> & ->)|Nd]; [now rewrite !N.eqb_refl|]. rewrite A. destruct (N.eqb_spec x a) as [->|]; [destruct (N.eqb_spec y k) as [->|]; [tauto|reflexivity]|reflexivity]. }
    assert (X12 : ev db s s2) by (eapply ev_trans; eassumption).
    assert (R2 : refund s2 = refund s) by congruence.
    assert (Hb64 : Z.of_N (2 ^ 64) = (2 ^ 64)%Z) by reflexivity.
    assert (TR : forall s3 n, quiet db s2 s3 -> Z.of_N n = (r + Z.of_N n - r)%Z -> True) by auto.
    assert (Fin : forall s3 s4 d, quiet db s2 s3 -> ev db s3 s4 -> (forall x, obj db s4 x = obj db s3 x) -> storages s4 = storages s3 -> Z.of_N (refund s4) = (r + d)%Z -> tracks s4 (update c a k v) (r + d) /\ ev db s s4).
    { intros s3 s4 d (Y1 & Y2 & _) Y3 O4 St4 Rf4. split; [|eapply ev_trans; [exact X12|]; eapply ev_trans; eassumption]. split; [|exact Rf4].
      intros x y Hx. assert (Hx' : live db s2 x) by (unfold live in *; now rewrite O4, (same_obj _ _ _ Y2) in Hx).
      destruct (T2 x y Hx') as (A & B). assert (Sx : storage_of s4 x = storage_of s3 x) by (unfold storage_of; now rewrite St4).
      unfold currentv, originalv. rewrite O4, Sx. split; [rewrite <- A; exact (same_cur _ _ _ Y2 x y)|rewrite <- B; exact (same_orig _ _ _ Y2 x y)]. }
    assert (Rz : Z.of_N (refund s2) = r) by (rewrite R2; exact Hr).
    assert (RF : forall s3 n, ev db s3 (set_refund s3 n)) by (intros; apply refund_ev).
    destruct schedule_cases as [(Es & Eb)|(sl & rs & Eb & Esl & Ers & L1 & L2 & Es & (L3 & L4) & L5)]; rewrite Es, Eb; cbn [negb].
    - destruct (c a k =? 0); [|destruct (v =? 0)]; intros [= <- <-]; (eexists; split; [reflexivity|]);
        (apply Fin with (s3 := s2); [apply quiet_refl|first [apply ev_refl|apply RF]|reflexivity|reflexivity|]); [lia| |lia].
      rewrite add_refund_val; lia.
    - unfold get_original_storage. destruct (get_storage db s2 a k true) as [og s3] eqn:E3. destruct (get_storage_quiet _ _ _ _ _ _ _ E3) as (Q3 & V3 & _). specialize (V3 Hl2). cbn in V3.
      assert (Eo : og = orig a k) by (rewrite V3; now apply T2). clear V3. subst og. assert (R3 : refund s3 = refund s2) by apply Q3. rewrite Esl, Ers.
      assert (R3z : Z.of_N (refund s3) = r) by (now rewrite R3).
      rewrite (N.eqb_sym (orig a k) (c a k)). destruct (N.eqb_spec (c a k) (orig a k)) as [Eo|Eo].
      + destruct (N.eqb_spec (orig a k) 0) as [E0|E0]; cbn [negb andb].
        * intros [= <- <-]. eexists. split; [reflexivity|]. apply Fin with (s3 := s3); [exact Q3|apply ev_refl|reflexivity|reflexivity|lia].
        * destruct (v =? 0); intros [= <- <-]; (eexists; split; [reflexivity|]); (apply Fin with (s3 := s3); [exact Q3|first [apply ev_refl|apply RF]|reflexivity|reflexivity|]); [|lia].
          rewrite add_refund_val; lia.
      + intros [= <- <-]. eexists. split; [reflexivity|]. cbv zeta.
        set (s4 := if negb (orig a k =? 0) then _ else s3).
        assert (S4 : ev db s3 s4 /\ (forall x, obj db s4 x = obj db s3 x) /\ storages s4 = storages s3
          /\ Z.of_N (refund s4) = (r + (if (negb (orig a k =? 0) && (v =? 0))%N then Z.of_N (sstore_clears_refund rev) else 0) - (if (negb (orig a k =? 0) && (c a k =? 0))%N then Z.of_N (sstore_clears_refund rev) else 0))%Z).
        { unfold s4. destruct (N.eqb_spec (orig a k) 0) as [E0|E0]; cbn [negb andb]; [split; [apply ev_refl|]; split; [reflexivity|]; split; [reflexivity|]; rewrite R3z; lia|].
          destruct (N.eqb_spec (c a k) 0) as [Ec|Ec]; destruct (N.eqb_spec v 0) as [Ev|Ev]; try congruence; cbv zeta.
          - assert (Hge : sstore_clears_refund rev <= refund s3).
            { pose proof (Hp [(a, k)] ltac:(constructor; [intros []|constructor]) ltac:(intros p [<-|[]]; unfold cleared; cbn; rewrite Ec; destruct (N.eqb_spec (orig a k) 0); [congruence|reflexivity])) as H. unfold weight in H. rewrite Es in H. cbn in H. lia. }
            split; [apply RF|]. split; [reflexivity|]. split; [reflexivity|]. rewrite sub_refund_val; lia.
          - split; [apply RF|]. split; [reflexivity|]. split; [reflexivity|]. rewrite add_refund_val; lia.
          - split; [apply ev_refl|]. split; [reflexivity|]. split; [reflexivity|]. lia. }
        destruct S4 as (Y4 & O4 & St4 & Rf4). clearbody s4. rewrite (N.eqb_sym (orig a k) v).
        destruct (N.eqb_spec v (orig a k)) as [Evo|Evo].
        * assert (Hd0 : (Z.of_N (refund s4) + 20000 < 2 ^ 64 \/ Z.of_N (refund s4) <= r)%Z).
          { rewrite Rf4. destruct (N.eqb_spec (orig a k) 0); cbn [negb andb]; [right; lia|]. destruct (N.eqb_spec v 0); [congruence|]. destruct (c a k =? 0); right; lia. }
          destruct (orig a k =? 0).
          -- apply Fin with (s3 := s3); [exact Q3|eapply ev_trans; [exact Y4|apply RF]|exact O4|exact St4|]. rewrite add_refund_val by lia. lia.
          -- apply Fin with (s3 := s3); [exact Q3|eapply ev_trans; [exact Y4|apply RF]|exact O4|exact St4|]. rewrite add_refund_val by lia. lia.
        * apply Fin with (s3 := s3); [exact Q3|exact Y4|exact O4|exact St4|]. lia.
  Qed.

  (** Nested frames *)
  Lemma perform_ok x : forall s l c r, (forall a, In a (writers x) -> live db s a) -> tracks s c r -> pot c r -> (r + 20000 * Z.of_N (writes x) < 2 ^ 64)%Z ->
    let '(s', l') := perform db rev x (s, l) in let w := account_for rev orig x (mkAcc c r l) in
    tracks s' (values w) (counter w) /\ pot (values w) (counter w) /\ statuses w = l' /\ ev db s s' /\ (counter w <= r + 20000 * Z.of_N (writes x))%Z.
  Proof.
    induction x as [a k v|kept body IH] using act_ind'; intros s l c r Hl Ht Hp Hb.
    - cbn [perform account_for values counter statuses writes] in *. destruct (host_set_storage db rev s a k v) as [t s'] eqn:E.
      destruct (write_ok s c r a k v t s' (Hl a ltac:(now left)) Ht Hp ltac:(lia) E) as (d & Ed & A & B). rewrite Ed. cbn [values counter statuses].
      destruct (sstore_pot c r a k v t d Hp Ed) as (C & D). split; [exact A|]. split; [exact C|]. split; [reflexivity|]. split; [exact B|lia].
    - cbn [perform account_for writes] in *. cbn [fst].
      assert (G : forall body, List.Forall (fun x => forall s l c r, (forall a, In a (writers x) -> live db s a) -> tracks s c r -> pot c r -> (r + 20000 * Z.of_N (writes x) < 2 ^ 64)%Z ->
          let '(s', l') := perform db rev x (s, l) in let w := account_for rev orig x (mkAcc c r l) in
          tracks s' (values w) (counter w) /\ pot (values w) (counter w) /\ statuses w = l' /\ ev db s s' /\ (counter w <= r + 20000 * Z.of_N (writes x))%Z) body ->
        forall s l c r, (forall a, In a (flat_map writers body) -> live db s a) -> tracks s c r -> pot c r -> (r + 20000 * Z.of_N (fold_right (fun y n => writes y + n)%N 0%N body) < 2 ^ 64)%Z ->
        let '(s', l') := fold_left (fun st y => perform db rev y st) body (s, l) in let w := fold_left (fun w y => account_for rev orig y w) body (mkAcc c r l) in
        tracks s' (values w) (counter w) /\ pot (values w) (counter w) /\ statuses w = l' /\ ev db s s' /\ (counter w <= r + 20000 * Z.of_N (fold_right (fun y n => writes y + n)%N 0%N body))%Z).
      { clear. induction body as [|y t IHt]; intros HF s l c r Hl Ht Hp Hb.
        - cbn. split; [exact Ht|]. split; [exact Hp|]. split; [reflexivity|]. split; [apply ev_refl|lia].
        - apply List.Forall_cons_iff in HF as (H1 & H2). cbn [fold_left fold_right flat_map] in *.
          specialize (H1 s l c r ltac:(intros a Ha; apply Hl, in_or_app; now left) Ht Hp ltac:(lia)).
          destruct (perform db rev y (s, l)) as [s1 l1]. cbv zeta in H1. destruct H1 as (A & B & C & D & E).
          destruct (account_for rev orig y (mkAcc c r l)) as [c1 r1 l1']. cbn [values counter statuses] in *. subst l1'.
          specialize (IHt H2 s1 l1 c1 r1 ltac:(intros a Ha; apply D, Hl, in_or_app; now right) A B ltac:(lia)).
          destruct (fold_left (fun st y => perform db rev y st) t (s1, l1)) as [s2 l2]. cbv zeta in IHt. destruct IHt as (A2 & B2 & C2 & D2 & E2).
          split; [exact A2|]. split; [exact B2|]. split; [exact C2|]. split; [eapply ev_trans; eassumption|lia]. }
      specialize (G body IH s l c r Hl Ht Hp Hb).
      destruct (fold_left (fun st y => perform db rev y st) body (s, l)) as [s' l']. cbv zeta in *. destruct G as (A & B & C & D & E).
      destruct kept; [split; [exact A|]; split; [exact B|]; split; [exact C|]; split; [exact D|exact E]|]. cbn [values counter statuses].
      destruct (revert_ok db s s' D) as (R1 & R2 & R3 & R4 & _). cbv zeta in *. split; [|split; [exact Hp|split; [exact C|split; [now apply revert_ev|lia]]]].
      destruct Ht as (Ht & Hr). split; [|now rewrite R4]. intros a k Ha. unfold live in Ha. rewrite (same_obj _ _ _ R1) in Ha.
      rewrite (same_cur _ _ _ R1), (same_orig _ _ _ R1). now apply Ht.
  Qed.
End Refund.

Section Final.
  Variable db : db_reader.
  Variable rev : N.
  Theorem refund_ok x s : (forall a, In a (writers x) -> existing db s a = true) -> refund s = 0 ->
    (forall a k, fst (get_current_storage db s a k) = fst (get_original_storage db s a k)) -> 20000 * writes x < 2 ^ 64 ->
    let orig := fun a k => fst (get_original_storage db s a k) in
    let w := account_for rev orig x (mkAcc orig 0 []) in
    let '(s', l) := perform db rev x (s, []) in
    l = statuses w /\ Z.of_N (refund s') = counter w /\ (0 <= counter w)%Z
    /\ forall a k, existing db s a = true -> fst (get_current_storage db s' a k) = values w a k.
  Proof.
    intros Hex Hr Heq Hb. cbv zeta. set (orig := fun a k => fst (get_original_storage db s a k)).
    assert (LV : forall t a, existing db t a = true <-> live db t a) by (intros t a; rewrite existing_live; apply liveb_spec).
    pose proof (perform_ok db rev orig x s [] orig 0) as H. destruct (perform db rev x (s, [])) as [s' l]. cbv zeta in H.
    destruct H as ((T1 & T2) & (P1 & _) & St & Ev & _).
    - intros a Ha. apply LV. now apply Hex.
    - split; [|now rewrite Hr]. intros a k Hl. pose proof (Heq a k) as H. unfold orig, get_original_storage, get_current_storage in *. rewrite !storage_value in *.
      apply liveb_spec in Hl. rewrite Hl in *. split; [exact H|reflexivity].
    - split; [lia|]. intros [|p l'] _ Hl; [cbn; lia|]. exfalso. specialize (Hl p ltac:(now left)). unfold cleared in Hl. apply andb_true_iff in Hl as (A & B). now rewrite B in A.
    - apply (proj2 (N2Z.inj_lt _ _)) in Hb || idtac. lia.
    - split; [now rewrite St|]. split; [exact T2|]. split; [exact P1|]. intros a k Ha. apply LV in Ha. apply Ev in Ha. unfold get_current_storage. rewrite storage_value.
      pose proof Ha as Ha'. apply liveb_spec in Ha'. rewrite Ha'. now apply T1.
  Qed.

  (** The hypotheses hold at the start of every transaction: after the previous one was finalised. *)
  Theorem boundary_fresh s a k : let s' := clear_journal_and_substate (finalize_transaction s) in
    refund s' = 0 /\ fst (get_current_storage db s' a k) = fst (get_original_storage db s' a k).
  Proof.
    cbv zeta. split; [reflexivity|]. set (s' := clear_journal_and_substate (finalize_transaction s)). unfold get_original_storage, get_current_storage. rewrite !storage_value.
    destruct (liveb db s' a); [|reflexivity]. unfold currentv, cur.
    assert (E : st_current (storage_of s' a) !! k = None).
    { unfold s', storage_of, finalize_transaction. cbn [storages clear_journal_and_substate set_storages]. rewrite lookup_fmap. destruct (storages s !! a); cbn; apply lookup_empty. }
    now rewrite E.
  Qed.
End Final.
