(** Proofs about the runner of the consensus tests: the state a blockchain test begins with is the one its file describes. *)
From stdpp Require Import gmap.
From Verif Require Import Base BaseFacts RlpModel RlpProofs TypesModel UtilModel UtilSpec UtilProofs DbModel MemBufModel StateModel ConsensusSpec ConsensusModel ConsensusProofs.
Open Scope list_scope.
Open Scope N_scope.

Lemma slots_initialised a i st : forall m xs, Forall2 (says_number 32) (map fst st) xs -> List.NoDup xs -> (forall s v, In (s, v) st -> exists w, says_number 32 v w /\ w <> 0) -> slots_ok m ->
  exists m', init_slots m a i st = Done m' /\ m_accounts m' = m_accounts m /\ m_code m' = m_code m /\ slots_ok m'
    /\ (forall k, ~ (exists l, In l xs /\ k = (a, i, l)) -> m_storage m' !! k = m_storage m !! k)
    /\ forall s v l w, In (s, v) st -> says_number 32 s l -> says_number 32 v w -> m_storage m' !! (a, i, l) = Some w.
Proof.
  induction st as [|[s v] st IH]; intros m xs F Nd V S; cbn [map fst] in F.
  - inversion F; subst. exists m. split; [reflexivity|]. split; [reflexivity|]. split; [reflexivity|]. split; [exact S|]. split; [reflexivity|]. intros ? ? ? ? [].
  - inversion F as [|? x ? xs' Hx Hr]; subst. inversion Nd as [|? ? Ni Nd']; subst. destruct (V s v (or_introl eq_refl)) as (w & Hw & Nw).
    destruct (number_word _ _ Hx) as (bx & Ex & Vx & _). destruct (number_word _ _ Hw) as (bw & Ew & Vw & _ & Bw). cbn [init_slots]. rewrite Ex, Ew. cbn [obind]. rewrite Vx, Vw.
    set (m1 := update_storage m a i x 0 w). assert (P : m_storage m1 = <[(a, i, x) := w]> (m_storage m)) by (cbn; unfold put; now rewrite (proj2 (N.eqb_neq w 0) Nw)).
    assert (S1 : slots_ok m1). { intros k u. rewrite P, lookup_insert_Some. intros [(_ & <-)|(_ & E)]; [now split|exact (S _ _ E)]. }
    destruct (IH m1 xs' Hr Nd' (fun s' v' I => V s' v' (or_intror I)) S1) as (m' & E & A & C & S' & O & L). exists m'. split; [exact E|]. split; [exact A|]. split; [exact C|]. split; [exact S'|]. split.
    + intros k H. rewrite O by (intros (l & I & ->); apply H; exists l; split; [now right|reflexivity]). rewrite P. apply lookup_insert_ne. intros <-. apply H. exists x. split; [now left|reflexivity].
    + intros s' v' l w' [I|I] H1 H2; [|now apply (L s' v')]. injection I as <- <-. rewrite (number_one _ _ _ _ H1 Hx), (number_one _ _ _ _ H2 Hw). rewrite O; [rewrite P; apply lookup_insert|]. intros (l' & I & [= <-]). exact (Ni I).
Qed.

Section Pre.
  Variable keccak : bytes -> bytes.
  (** What one entry leaves. *)
  Definition entered (m m' : membuf) (a : N) (e : json_account) (c : bytes) (acc : account) : Prop :=
    hex_denotes (j_code e) c /\ says_number 32 (j_balance e) (a_balance acc) /\ says_number 8 (j_nonce e) (a_nonce acc)
    /\ a_code_hash acc = (match c with [] => kEmptyHash | _ => keccak c end)
    /\ m_accounts m' = <[a := acc]> (m_accounts m) /\ m_code m' = (match c with [] => m_code m | _ => <[keccak c := c]> (m_code m) end)
    /\ (forall k, fst (fst k) <> a -> m_storage m' !! k = m_storage m !! k)
    /\ (forall s v l w, In (s, v) (j_storage e) -> says_number 32 s l -> says_number 32 v w -> m_storage m' !! (a, a_incarnation acc, l) = Some w)
    /\ (forall l, is_Some (m_storage m' !! (a, a_incarnation acc, l)) -> exists s v, In (s, v) (j_storage e) /\ says_number 32 s l).
  Lemma entry_initialised m s a e : says_address s a -> account_ok e -> slots_ok m -> (forall i l, m_storage m !! (a, i, l) = None) ->
    exists m' c acc, init_entry keccak m s e = Done m' /\ slots_ok m' /\ entered m m' a e c acc.
  Proof.
    intros Ha ((bal & Hb) & (non & Hn) & (code & Hc) & (xs & F & Nd) & V) S Em. destruct (address_read _ _ Ha) as (ba & Ea & Va). unfold init_entry. rewrite Ea. cbn [obind]. rewrite Va.
    destruct (number_read _ _ _ Hb) as (bb & Eb & Rb). rewrite Eb. cbn [obind]. unfold read_uint256. rewrite Rb. cbn [obind].
    destruct (number_read _ _ _ Hn) as (bn & En & Rn). rewrite En. cbn [obind]. unfold read_uint64. rewrite Rn. cbn [obind].
    rewrite (hex_value _ _ Hc). cbn [obind].
    set (acc := match code with [] => mkAccount non bal kEmptyHash 0 | _ => mkAccount non bal (keccak code) 1 end).
    set (m0 := match code with [] => m | _ => update_account_code m (keccak code) code end). set (m1 := update_account m0 a None (Some acc)).
    assert (St : m_storage m1 = m_storage m) by (unfold m1, m0; destruct code; reflexivity).
    destruct (slots_initialised a (a_incarnation acc) (j_storage e) m1 xs F Nd V) as (m' & E & A & C & S' & O & L); [intros k u; rewrite St; apply S|].
    exists m', code, acc. split; [exact E|]. split; [exact S'|]. destruct (forall2_fst _ _ _ F) as (A1 & A2 & _).
    split; [exact Hc|]. split; [unfold acc; now destruct code|]. split; [unfold acc; now destruct code|]. split; [unfold acc; now destruct code|].
    split; [rewrite A; unfold m1, m0; now destruct code|]. split; [rewrite C; unfold m1, m0; now destruct code|]. split; [|split; [exact L|]].
    - intros k H. rewrite O, St; [reflexivity|]. intros (l & _ & ->). now apply H.
    - intros l H. destruct (in_dec N.eq_dec l xs) as [I|I]; [now apply A2|]. rewrite O, St, Em in H; [now destruct H|]. intros (l' & I' & [= <-]). exact (I I').
  Qed.

  Definition codes_apart (l : list (bytes * json_account)) : Prop :=
    forall s e c, In (s, e) l -> hex_denotes (j_code e) c -> (keccak c = kEmptyHash -> c = []) /\ forall s' e' c', In (s', e') l -> hex_denotes (j_code e') c' -> keccak c = keccak c' -> c = c'.
  Definition code_from (l : list (bytes * json_account)) (m : membuf) : Prop := forall h c, m_code m !! h = Some c -> h = keccak c /\ c <> [] /\ exists s e, In (s, e) l /\ hex_denotes (j_code e) c.
  Lemma pre_initialised all : codes_apart all -> forall l m xs, Forall2 says_address (map fst l) xs -> List.NoDup xs -> (forall s e, In (s, e) l -> account_ok e /\ In (s, e) all) -> slots_ok m -> code_from all m ->
    (forall a i k, In a xs -> m_storage m !! (a, i, k) = None) ->
    exists m', init_pre_state keccak m l = Done m' /\ slots_ok m' /\ code_from all m' /\ (forall h, is_Some (m_code m !! h) -> is_Some (m_code m' !! h))
      /\ (forall a, ~ In a xs -> m_accounts m' !! a = m_accounts m !! a /\ forall i k, m_storage m' !! (a, i, k) = m_storage m !! (a, i, k))
      /\ forall s e a, In (s, e) l -> says_address s a -> account_described (reads m') a e.
  Proof.
    intros Ca. induction l as [|[s e] l IH]; intros m xs F Nd K S Cf Em; cbn [map fst] in F.
    - exists m. split; [reflexivity|]. split; [exact S|]. split; [exact Cf|]. split; [easy|]. split; [easy|]. intros ? ? ? [].
    - inversion F as [|? x ? xs' Hx Hr]; subst. inversion Nd as [|? ? Ni Nd']; subst. destruct (K s e (or_introl eq_refl)) as (Oe & Ie).
      destruct (entry_initialised m s x e Hx Oe S (fun i k => Em x i k (or_introl eq_refl))) as (m1 & c & acc & E1 & S1 & H1 & H2 & H3 & H4 & H5 & H6 & H7 & H8 & H9).
      assert (Cf1 : code_from all m1). { intros h c'. rewrite H6. destruct c as [|y c]; [apply Cf|]. rewrite lookup_insert_Some. intros [(<- & <-)|(_ & Q)]; [|exact (Cf _ _ Q)]. split; [reflexivity|]. split; [easy|]. now exists s, e. }
      destruct (IH m1 xs' Hr Nd' (fun s' e' I => K s' e' (or_intror I)) S1 Cf1) as (m' & E & S' & C' & Mo & O & D).
      { intros a i k I. rewrite H7; [apply Em; now right|]. cbn. intros ->. exact (Ni I). }
      exists m'. cbn [init_pre_state]. rewrite E1. cbn [obind]. split; [exact E|]. split; [exact S'|]. split; [exact C'|]. split; [|split].
      + intros h Q. apply Mo. rewrite H6. destruct c; [exact Q|]. apply lookup_insert_is_Some'. now right.
      + intros a I. destruct (O a) as (Oa & Os); [intros J; apply I; now right|]. assert (x <> a) by (intros ->; apply I; now left). rewrite Oa, H5, lookup_insert_ne by easy. split; [reflexivity|]. intros i k. rewrite Os. apply H7. cbn. congruence.
      + intros s' e' a [I|I] Ha; [|now apply (D s')]. injection I as <- <-. rewrite (address_one _ _ _ Ha Hx). destruct (O x Ni) as (Oa & Os). exists acc. cbn [reads r_account r_code r_slot].
        split; [rewrite Oa, H5; apply lookup_insert|]. split; [exact H2|]. split; [exact H3|]. split; [|split].
        * enough (Q : default [] (m_code m' !! a_code_hash acc) = c) by now rewrite Q. rewrite H4. destruct c as [|y c].
          -- destruct (m_code m' !! kEmptyHash) as [c'|] eqn:Q; [|reflexivity]. destruct (C' _ _ Q) as (Qh & Qc & s' & e' & I' & D'). destruct Qc. apply (proj1 (Ca s' e' c' I' D')). now symmetry.
          -- change (default [] (m_code m' !! keccak (y :: c)) = y :: c). assert (T : is_Some (m_code m' !! keccak (y :: c))) by (apply Mo; rewrite H6, lookup_insert; now eexists). destruct T as (c' & Q). apply (eq_trans (y := c')); [exact (f_equal (default []) Q)|].
             destruct (C' _ _ Q) as (Qh & _ & s' & e' & I' & D'). symmetry. exact (proj2 (Ca s e _ Ie H1) s' e' c' I' D' Qh).
        * intros s' v l' w I' Q1 Q2. now rewrite Os, (H8 s' v l' w I' Q1 Q2).
        * intros l' Q. rewrite Os in Q. apply H9. destruct (m_storage m1 !! (x, a_incarnation acc, l')) as [u|]; [now exists u|now cbn in Q].
  Qed.
  Theorem pre_state l : section_ok l -> codes_apart l -> exists m, init_pre_state keccak mem_empty l = Done m /\ slots_ok m /\ state_described (reads m) l.
  Proof.
    intros ((xs & F & Nd) & A) Ca. destruct (pre_initialised l Ca l mem_empty xs F Nd) as (m & E & S & _ & _ & O & D).
    - intros s e I. split; [exact (A _ _ I)|exact I].
    - intros k v H. cbn in H. now rewrite lookup_empty in H.
    - intros h c H. cbn in H. now rewrite lookup_empty in H.
    - intros a i k _. cbn. apply lookup_empty.
    - exists m. split; [exact E|]. split; [exact S|]. split; [exact D|]. intros a H. cbn [reads r_account] in H. destruct (in_dec N.eq_dec a xs) as [I|I].
      + now apply (proj1 (proj2 (forall2_fst _ _ _ F))).
      + destruct H. rewrite (proj1 (O a I)). cbn. apply lookup_empty.
  Qed.
  Theorem pre_state_checked l : section_ok l -> codes_apart l -> exists m, init_pre_state keccak mem_empty l = Done m /\ post_check m l = Done true.
  Proof. intros Ok_ Ca. destruct (pre_state l Ok_ Ca) as (m & E & S & D). exists m. split; [exact E|]. destruct (post_checked m S l Ok_) as (b & Q & R). rewrite Q. f_equal. now apply R. Qed.
End Pre.
