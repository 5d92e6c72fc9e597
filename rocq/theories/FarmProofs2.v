(** The farm: what is read and what a worker computes. *)
From Coq Require Import Strings.String Permutation Sorting.Sorted.
From Verif Require Import Base BaseFacts TxModel BlockModel ChainModel DbTable DbModel DbProofs EtlModel EtlSpec EtlProofs HashStateModel HashStateProofs FarmModel FarmSpec FarmProofs.
Open Scope list_scope.
Open Scope N_scope.

Section Work.
  Variable keccak : bytes -> bytes.
  Variable recover : bytes -> bytes -> bool -> option bytes.
  Hypothesis Hk : forall x, length (keccak x) = 32%nat.
  Hypothesis Hr : forall h s p k, recover h s p = Some k -> exists r, k = 4 :: r.
  Notation packages b := (map (package_of keccak (b_number b)) (b_txs b)).
  Definition good_block (b : chain_block) : Prop := Forall2 (fun t a => recover_sender keccak recover t = Some a) (b_txs b) (b_senders b).
  Definition result (b : chain_block) : N * bytes := (b_number b, concat (b_senders b)).

  Lemma address_of_package n t a : recover_sender keccak recover t = Some a -> address_of keccak recover (package_of keccak n t) = Some a /\ length a = 20%nat.
  Proof using Hk Hr.
    unfold recover_sender, address_of, package_of. cbn [p_hash p_signature p_odd]. destruct (recover _ _ _) as [k|] eqn:E; [|discriminate]. destruct (Hr _ _ _ _ E) as (r & ->). intros H. change (4 =? 4) with true. cbn iota. split; [exact H|]. injection H as <-. cbn [tl]. rewrite skipn_length, Hk. reflexivity.
  Qed.
  Lemma work_block size n txs : forall senders rest off block res, Forall2 (fun t a => recover_sender keccak recover t = Some a) txs senders -> off + blen block + 20 * N.of_nat (length txs) <= size ->
    work_loop keccak recover size (map (package_of keccak n) txs ++ rest) n off block res = work_loop keccak recover size rest n off (block ++ concat senders) res.
  Proof using Hk Hr.
    induction txs as [|t txs IH]; intros senders rest off block res F L; inversion F as [|? a ? as_ Fa Fs]; subst; cbn [map app concat]; [now rewrite app_nil_r|]. cbn [work_loop]. change (p_block (package_of keccak n t)) with n. rewrite N.eqb_refl. destruct (address_of_package n t a Fa) as (-> & La).
    cbn [length] in L. destruct (N.ltb_spec size (off + blen block + 20)) as [X|X]; [lia|]. rewrite (IH as_ rest off (block ++ a) res Fs); [now rewrite <- app_assoc|]. unfold blen in *. rewrite app_length, La. lia.
  Qed.
  Lemma work_switch size n txs rest off block res n0 : txs <> [] -> n0 <> n ->
    work_loop keccak recover size (map (package_of keccak n) txs ++ rest) n0 off block res = work_loop keccak recover size (map (package_of keccak n) txs ++ rest) n (off + blen block) [] (res ++ [(n0, block)]).
  Proof.
    intros Ne Nn. destruct txs as [|t txs]; [congruence|]. cbn [map app work_loop]. change (p_block (package_of keccak n t)) with n. rewrite N.eqb_refl. destruct (N.eqb_spec n0 n); [congruence|]. reflexivity.
  Qed.
  Lemma senders_length b : good_block b -> blen (concat (b_senders b)) = 20 * N.of_nat (length (b_txs b)).
  Proof using Hk Hr.
    unfold good_block, blen. intros F. induction F as [|t a txs as_ Fa _ IH]; [reflexivity|]. cbn [concat length]. rewrite app_length. destruct (address_of_package 0 t a Fa) as (_ & ->). lia.
  Qed.
  Fixpoint rising (n : N) (l : list chain_block) : Prop := match l with [] => True | b :: r => n < b_number b /\ rising (b_number b) r end.
  Lemma work_group size group : forall n off block res, block <> [] -> Forall (fun b => good_block b /\ b_txs b <> []) group -> rising n group -> off + blen block + 20 * count group <= size ->
    work_loop keccak recover size (concat (map (fun b => packages b) group)) n off block res = Ready (res ++ (n, block) :: map result group).
  Proof using Hk Hr.
    induction group as [|b group IH]; intros n off block res Nb F Ri L; cbn [map concat].
    - cbn [work_loop]. destruct block; [congruence|reflexivity].
    - inversion F as [|? ? (Gb & Ne) Fs]; subst. destruct Ri as (Rn & Ri). unfold count in L. cbn [map concat] in L. rewrite app_length, Nat2N.inj_add in L. rewrite work_switch; [|exact Ne|lia]. pose proof (senders_length b Gb) as Ls. rewrite (work_block size (b_number b) (b_txs b) (b_senders b)); [|exact Gb|change (blen []) with 0; lia].
      cbn [app]. assert (Lt : (1 <= length (b_txs b))%nat) by (destruct (b_txs b); [congruence|cbn; lia]). assert (Nc : concat (b_senders b) <> []) by (intros X; rewrite X in Ls; change (blen []) with 0 in Ls; lia).
      rewrite (IH (b_number b) _ _ _ Nc Fs Ri); [rewrite <- app_assoc; reflexivity|]. rewrite Ls. unfold count. lia.
  Qed.
  Lemma work_ok size group n : group <> [] -> Forall (fun b => good_block b /\ b_txs b <> []) group -> rising n group -> 20 * count group <= size ->
    work keccak recover size (concat (map (fun b => packages b) group)) = Ready (map result group).
  Proof using Hk Hr.
    intros Ng F Ri L. destruct group as [|b group]; [congruence|]. inversion F as [|? ? (Gb & Ne) Fs]; subst. destruct Ri as (_ & Ri). cbn [map concat]. unfold count in L. cbn [map concat] in L. rewrite app_length, Nat2N.inj_add in L.
    assert (Ew : work keccak recover size (packages b ++ concat (map (fun b => packages b) group)) = work_loop keccak recover size (packages b ++ concat (map (fun b => packages b) group)) (b_number b) 0 [] []).
    { unfold work. destruct (b_txs b) as [|t txs]; [congruence|]. reflexivity. }
    rewrite Ew. pose proof (senders_length b Gb) as Ls. rewrite (work_block size (b_number b) (b_txs b) (b_senders b)); [|exact Gb|change (blen []) with 0; lia]. cbn [app].
    assert (Lt : (1 <= length (b_txs b))%nat) by (destruct (b_txs b); [congruence|cbn; lia]). assert (Nc : concat (b_senders b) <> []) by (intros X; rewrite X in Ls; change (blen []) with 0 in Ls; lia).
    rewrite (work_group size group (b_number b) 0 _ [] Nc Fs Ri); [reflexivity|]. rewrite Ls. unfold count. lia.
  Qed.

End Work.

Section Reading.
  Variable keccak : bytes -> bytes.
  Notation packages b := (map (package_of keccak (b_number b)) (b_txs b)).
  (** ** Batches *)
  Definition has_txs (b : chain_block) : bool := negb (Nat.eqb (length (b_txs b)) 0).
  Definition group_of (cur : list chain_block) : list (list chain_block) := match cur with [] => [] | _ => [cur] end.
  Fixpoint grouping (max : N) (cur : list chain_block) (l : list chain_block) : list (list chain_block) :=
    match l with
    | [] => group_of cur
    | b :: r =>
      if has_txs b then if max <? count cur + N.of_nat (length (b_txs b)) then group_of cur ++ grouping max [b] r else grouping max (cur ++ [b]) r
      else grouping max cur r
    end.
  Lemma grouping_concat max l : forall cur, concat (grouping max cur l) = cur ++ filter has_txs l.
  Proof.
    induction l as [|b l IH]; intros cur; cbn [grouping filter].
    - destruct cur; cbn; now rewrite ?app_nil_r.
    - destruct (has_txs b); [|apply IH]. destruct (max <? _).
      + rewrite concat_app, IH. cbn [app]. destruct cur; cbn; now rewrite ?app_nil_r.
      + rewrite IH, <- app_assoc. reflexivity.
  Qed.
  Lemma count_app a b : count (a ++ b) = count a + count b.
  Proof. unfold count. rewrite map_app, concat_app, app_length. lia. Qed.
  Lemma count_one b : count [b] = N.of_nat (length (b_txs b)).
  Proof. unfold count. cbn. now rewrite app_nil_r. Qed.
  Lemma grouping_ok max l : forall cur, (forall b, In b l -> N.of_nat (length (b_txs b)) <= max) -> count cur <= max -> Forall (fun g => g <> [] /\ count g <= max) (grouping max cur l).
  Proof.
    assert (G : forall cur, count cur <= max -> Forall (fun g => g <> [] /\ count g <= max) (group_of cur)) by (intros [|b cur] L; constructor; [split; [discriminate|exact L]|constructor]).
    induction l as [|b l IH]; intros cur Hb L; cbn [grouping]; [now apply G|]. assert (Hl : forall b0, In b0 l -> N.of_nat (length (b_txs b0)) <= max) by (intros; apply Hb; now right).
    destruct (has_txs b); [|now apply IH]. destruct (N.ltb_spec max (count cur + N.of_nat (length (b_txs b)))) as [X|X].
    - apply Forall_app. split; [now apply G|]. apply IH; [exact Hl|]. rewrite count_one. apply Hb. now left.
    - apply IH; [exact Hl|]. rewrite count_app, count_one. exact X.
  Qed.
  Definition batch_of (g : list chain_block) : list package := concat (map (fun b => packages b) g).
  Lemma batch_length g : N.of_nat (length (batch_of g)) = count g.
  Proof. unfold batch_of, count. induction g as [|b g IH]; [reflexivity|]. cbn [map concat]. rewrite !app_length, map_length, !Nat2N.inj_add. lia. Qed.
  Lemma dispatched_group cur : Forall (fun b => b_txs b <> []) cur -> dispatched (batch_of cur) = map batch_of (group_of cur).
  Proof. intros F. destruct cur as [|b cur]; [reflexivity|]. inversion F; subst. unfold batch_of. cbn [map concat group_of]. destruct (b_txs b) as [|t txs]; [congruence|]. reflexivity. Qed.

  (** ** Reading *)
  Lemma number_of n h : n < 2 ^ 64 -> be_to_N (firstn 8 (block_key_hash n h)) = n.
  Proof.
    intros L. unfold block_key_hash. rewrite firstn_app, be_fixed_length, Nat.sub_diag, firstn_O, app_nil_r. rewrite firstn_all2 by (rewrite be_fixed_length; lia). apply be_to_N_be_fixed_small. exact L.
  Qed.
  Lemma hash_of n h : length h = 32%nat -> firstn 32 (skipn 8 (block_key_hash n h)) = h.
  Proof. intros L. unfold block_key_hash. rewrite skipn_app, be_fixed_length, Nat.sub_diag, skipn_O. rewrite skipn_all2 by (rewrite be_fixed_length; lia). cbn [app]. apply firstn_all2. lia. Qed.
  Lemma key_length n h : length h = 32%nat -> length (block_key_hash n h) = 40%nat.
  Proof. intros L. unfold block_key_hash. rewrite app_length, be_fixed_length, L. reflexivity. Qed.
  Section Db.
    Variable d : database.
    Variable c : chain_config.
    Variable max : N.
    Definition keys_ok (t : table) : Prop := forall k v, In (k, v) t -> exists n h, k = block_key_hash n h /\ n < 2 ^ 64 /\ length h = 32%nat.
    Lemma skip_entries l q : forall h hs n batch, n < 2 ^ 64 -> keys_ok l -> (forall e, In e l -> lex_lt (fst e) (block_key_hash n h) = true) ->
      read_bodies keccak max c d (l ++ q) (h :: hs) n batch = read_bodies keccak max c d q (h :: hs) n batch.
    Proof.
      induction l as [|[k v] l IH]; intros h hs n batch Ln K Lt; [reflexivity|]. cbn [app read_bodies]. destruct (K k v (or_introl eq_refl)) as (m & g & -> & Lm & Lg). rewrite key_length by exact Lg. change (40 <? 40)%nat with false. cbn iota. rewrite number_of, hash_of by assumption.
      assert (R : read_bodies keccak max c d (l ++ q) (h :: hs) n batch = read_bodies keccak max c d q (h :: hs) n batch) by (apply IH; [exact Ln|intros k0 v0 I; apply (K k0 v0); now right|intros e I; apply Lt; now right]).
      pose proof (Lt _ (or_introl eq_refl)) as Lk. cbn [fst] in Lk. apply (proj1 (block_key_hash_lt m n g h Lm Ln)) in Lk. destruct (N.ltb_spec m n) as [X|X]; [exact R|]. destruct Lk as [Lk|(-> & Lk)]; [lia|]. rewrite N.ltb_irrefl.
      destruct (eqb_spec g h) as [->|Ne]; [rewrite lex_lt_irrefl in Lk; discriminate|]. exact R.
    Qed.
    Lemma read_block_step h hs n batch v r txs : n < 2 ^ 64 -> length h = 32%nat -> (do (b, _) := decode_stored v in read_transactions d (sb_base b) (sb_count b)) = Done txs -> Forall (signed_for c n) txs ->
      read_bodies keccak max c d ((block_key_hash n h, v) :: r) (h :: hs) n batch =
      let full := negb (Nat.eqb (length txs) 0) && (max <? N.of_nat (length batch) + N.of_nat (length txs)) in
      let out := if full then dispatched batch else [] in
      let batch := (if full then [] else batch) ++ map (package_of keccak n) txs in
      match hs with
      | [] => (out ++ dispatched batch, E_finish)
      | _ => let '(bs, e) := read_bodies keccak max c d r hs (n + 1) batch in (out ++ bs, e)
      end.
    Proof.
      intros Ln Lh E F. cbn [read_bodies]. rewrite key_length by exact Lh. change (40 <? 40)%nat with false. cbn iota. rewrite number_of, hash_of by assumption. rewrite N.ltb_irrefl. rewrite eqb_refl. cbn [negb]. cbn iota. rewrite E.
      assert (Ef : fill_batch keccak c n txs = Some (map (package_of keccak n) txs)).
      { unfold fill_batch. replace (forallb (passes_checks c n) txs) with true; [reflexivity|]. symmetry. apply forallb_forall. intros t It. rewrite Forall_forall in F. destruct (F t It) as (F1 & F2). unfold passes_checks. rewrite F1. cbn [andb]. destruct (tx_chain_id t) as [id|]; [|reflexivity]. destruct (F2 id eq_refl) as (F3 & ->). rewrite N.eqb_refl. destruct (N.leb_spec EVMC_SPURIOUS_DRAGON (revision c n)); [reflexivity|lia]. }
      rewrite Ef. reflexivity.
    Qed.
    Lemma read_all blocks : forall from p cur, blocks <> [] -> ordered p -> keys_ok p -> (forall i b, nth_error blocks i = Some b -> b_number b = from + N.of_nat i) -> from + N.of_nat (length blocks) < 2 ^ 64 ->
      (forall b, In b blocks -> length (b_hash b) = 32%nat /\ Forall (signed_for c (b_number b)) (b_txs b) /\ exists v, In (block_key_hash (b_number b) (b_hash b), v) p /\ (do (s, _) := decode_stored v in read_transactions d (sb_base s) (sb_count s)) = Done (b_txs b)) ->
      Forall (fun b => b_txs b <> []) cur ->
      read_bodies keccak max c d p (map b_hash blocks) from (batch_of cur) = (map batch_of (grouping max cur blocks), E_finish).
    Proof.
      induction blocks as [|b blocks IH]; intros from p cur Nb Op Kp Num Lf Hb Fc; [congruence|]. destruct (Hb b (or_introl eq_refl)) as (Lh & Sg & v & Iv & Dv). pose proof (Num 0%nat b eq_refl) as En. rewrite N.add_0_r in En. cbn [length] in Lf. assert (Ln : from < 2 ^ 64) by lia.
      apply in_split in Iv as (l & r & ->). pose proof Op as Op'. apply sorted_app in Op' as (_ & Or & Lr). apply sorted_cons_inv in Or as (Or & Fr). cbn [map]. rewrite En in *. rewrite skip_entries; [|exact Ln|intros k0 v0 I; apply (Kp k0 v0); apply in_or_app; now left|intros e I; exact (Lr e (block_key_hash from (b_hash b), v) I (or_introl eq_refl))].
      eapply eq_trans; [exact (read_block_step (b_hash b) (map b_hash blocks) from (batch_of cur) v r (b_txs b) Ln Lh Dv Sg)|]. cbv zeta.
      rewrite batch_length. set (full := negb (Nat.eqb (length (b_txs b)) 0) && (max <? count cur + N.of_nat (length (b_txs b)))). set (cur' := (if full then [] else cur) ++ (if has_txs b then [b] else [])).
      assert (Ec : (if full then [] else batch_of cur) ++ map (package_of keccak from) (b_txs b) = batch_of cur').
      { unfold cur', batch_of, has_txs. rewrite map_app, concat_app. f_equal; [destruct full; reflexivity|]. destruct (b_txs b) as [|t txs] eqn:Et; [reflexivity|]. cbn [length Nat.eqb negb map concat]. rewrite app_nil_r, Et, En. reflexivity. }
      rewrite Ec. assert (Fc' : Forall (fun b0 => b_txs b0 <> []) cur').
      { unfold cur'. apply Forall_app. split; [destruct full; [constructor|exact Fc]|]. unfold has_txs. destruct (b_txs b) eqn:Et; cbn; [constructor|]. constructor; [congruence|constructor]. }
      assert (Eg : map batch_of (grouping max cur (b :: blocks)) = (if full then dispatched (batch_of cur) else []) ++ map batch_of (grouping max cur' blocks)).
      { cbn [grouping]. unfold cur', full. fold (has_txs b). destruct (has_txs b); cbn [andb]; [|cbn [app]; rewrite app_nil_r; reflexivity]. destruct (max <? count cur + N.of_nat (length (b_txs b))); [|reflexivity]. rewrite map_app, dispatched_group by exact Fc. reflexivity. }
      rewrite Eg. destruct blocks as [|b1 blocks].
      - cbn [map grouping]. rewrite (dispatched_group cur' Fc'). reflexivity.
      - assert (R : read_bodies keccak max c d r (map b_hash (b1 :: blocks)) (from + 1) (batch_of cur') = (map batch_of (grouping max cur' (b1 :: blocks)), E_finish)).
        { apply IH; [discriminate|exact Or|intros k0 v0 I; apply (Kp k0 v0); apply in_or_app; right; now right| |cbn [length] in *; lia| |exact Fc'].
          - intros i b0 Ei. rewrite (Num (S i) b0 Ei). lia.
          - intros b0 Ib. destruct (Hb b0 (or_intror Ib)) as (Lh0 & Sg0 & v0 & Iv0 & Dv0). split; [exact Lh0|]. split; [exact Sg0|]. exists v0. split; [|exact Dv0]. apply In_nth_error in Ib as (i & Ei). pose proof (Num (S i) b0 Ei) as En0. pose proof (nth_lt _ _ _ Ei) as Li. cbn [length] in *.
            apply in_app_or in Iv0 as [Iv0|[Iv0|Iv0]]; [| |exact Iv0]; exfalso.
            + pose proof (Lr _ _ Iv0 (or_introl eq_refl)) as X. cbn [fst] in X. apply (proj1 (block_key_hash_lt (b_number b0) from _ _ ltac:(lia) Ln)) in X. lia.
            + apply (f_equal fst) in Iv0. cbn [fst] in Iv0. pose proof (f_equal (fun k => be_to_N (firstn 8 k)) Iv0) as X. cbn beta in X. rewrite !number_of in X by lia. lia. }
        change (b_hash b1 :: map b_hash blocks) with (map b_hash (b1 :: blocks)). cbn [map] in R |- *. rewrite R. reflexivity.
    Qed.
  End Db.
End Reading.
