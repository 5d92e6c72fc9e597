(** Proofs about the unwinding of the execution stage. *)
From stdpp Require Import gmap.
From Coq Require Import Sorting.Sorted.
From Verif Require Import Base BaseFacts RlpModel TypesModel TypesSpec TypesProofs UtilModel UtilProofs DbTable DbModel DbSpec DbProofs BufferModel BufferSpec BufferProofs2 BufferProofs3 UnwindModel UnwindSpec.

(** ** Walking back *)
Definition block_of (e : entry) : N := be_to_N (firstn 8 (fst e)).
Definition unwind_step (e : entry) (state codes : table) : out (table * table) :=
  do (k, v) := convert_to_db_format (fst e) (snd e) in collect_for_unwind k v state codes.
(** The records of a list applied from its end. *)
Fixpoint unwind_all (l : list entry) (state codes : table) : out (table * table) :=
  match l with [] => Done (state, codes) | e :: r => do (state, codes) := unwind_all r state codes in unwind_step e state codes end.
Lemma walk_back_app l : forall rest n state codes, Forall (fun e => (8 <= length (fst e))%nat /\ block_of e <> n) l ->
  walk_back (rev l ++ rest) n state codes = obind (unwind_all l state codes) (fun '(state, codes) => walk_back rest n state codes).
Proof.
  induction l as [|[k v] l IH]; intros rest n state codes F; [reflexivity|]. apply Forall_cons_iff in F as ((L & B) & F). cbn [rev]. rewrite <- app_assoc. rewrite IH by exact F. cbn [unwind_all app]. destruct (unwind_all l state codes) as [[s c]| |]; [|reflexivity..]. cbn [obind walk_back].
  cbn [fst] in L. destruct (Nat.ltb_spec (length k) 8) as [X|_]; [lia|]. unfold block_of in B. cbn [fst] in B. destruct (N.eqb_spec (be_to_N (firstn 8 k)) n); [contradiction|]. unfold unwind_step. cbn [fst snd]. destruct (convert_to_db_format k v) as [[k' v']| |]; [|reflexivity..]. cbn [obind]. now destruct (collect_for_unwind k' v' s c) as [[s' c']| |].
Qed.
Lemma split_at (f : entry -> N) n (t : table) : StronglySorted (fun a b => f a <= f b) t -> (exists e, In e t /\ f e = n) ->
  exists pre e post, t = pre ++ e :: post /\ f e = n /\ Forall (fun x => n < f x) post /\ Forall (fun x => f x <= n) pre.
Proof.
  induction t as [|x t IH]; intros H (e & I & E); [destruct I|]. apply sorted_cons_inv in H as (H & F).
  destruct (N.lt_ge_cases n (f x)) as [L|L].
  - exfalso. destruct I as [ <- |I]; [lia|]. apply F in I. lia.
  - assert (D : (exists y, In y t /\ f y = n) \/ ~ (exists y, In y t /\ f y = n)).
    { clear -t. induction t as [|y t IH]; [right; intros (y & [] & _)|]. destruct (N.eq_dec (f y) n) as [E|E]; [left; exists y; split; [now left|exact E]|]. destruct IH as [(z & I & Ez)|IH]; [left; exists z; split; [now right|exact Ez]|right]. intros (z & [ <- |I] & Ez); [contradiction|]. apply IH. now exists z. }
    destruct D as [D|D].
    + destruct (IH H D) as (pre & y & post & -> & Ey & Fp & Fq). exists (x :: pre), y, post. repeat split; auto.
    + destruct I as [ <- |I]; [|exfalso; apply D; now exists e]. exists [], x, t. repeat split; auto. apply Forall_forall. intros y Iy. specialize (F y Iy). destruct (N.eq_dec (f y) n) as [X|X]; [exfalso; apply D; now exists y|]. lia.
Qed.
Lemma walk_collect_split t n state codes : StronglySorted (fun a b => block_of a <= block_of b) t -> Forall (fun e => (8 <= length (fst e))%nat) t -> (exists e, In e t /\ block_of e = n) ->
  exists pre post, t = pre ++ post /\ Forall (fun x => n < block_of x) post /\ Forall (fun x => block_of x <= n) pre /\ walk_collect t n state codes = unwind_all post state codes.
Proof.
  intros H L E. destruct (split_at block_of n t H E) as (pre & e & post & -> & Ee & Fp & Fq). exists (pre ++ [e]), post. split; [now rewrite <- app_assoc|]. split; [exact Fp|]. split; [apply Forall_app; split; [exact Fq|constructor; [lia|constructor]]|].
  unfold walk_collect. rewrite rev_app_distr. cbn [rev]. rewrite <- app_assoc. cbn [app]. apply Forall_app in L as (_ & L). apply Forall_cons_iff in L as (Le & L). rewrite walk_back_app.
  - destruct (unwind_all post state codes) as [[s c]| |]; [|reflexivity..]. cbn [obind]. destruct e as [k v]. cbn [walk_back]. cbn [fst] in Le. destruct (Nat.ltb_spec (length k) 8) as [X|_]; [lia|]. unfold block_of in Ee. cbn [fst] in Ee. rewrite Ee, N.eqb_refl. reflexivity.
  - rewrite Forall_forall in *. intros x Hx. split; [now apply L|]. specialize (Fp x Hx). lia.
Qed.
(** Ordered tables whose keys start with block numbers are ordered by them. *)
Lemma be8_prefix m k : firstn 8 (be_fixed 8 m ++ k) = be_fixed 8 m.
Proof. rewrite firstn_app, be_fixed_length, Nat.sub_diag. cbn [firstn]. rewrite app_nil_r. rewrite <- (be_fixed_length 8 m) at 1. apply firstn_all. Qed.
Lemma block_of_key m k v : m < 2 ^ 64 -> block_of (be_fixed 8 m ++ k, v) = m.
Proof. intros H. unfold block_of. cbn [fst]. rewrite be8_prefix. now apply be_to_N_be_fixed_small. Qed.
Lemma block_of_key0 m v : m < 2 ^ 64 -> block_of (be_fixed 8 m, v) = m.
Proof. intros H. rewrite <- (app_nil_r (be_fixed 8 m)). now apply block_of_key. Qed.
Lemma table_by_block (t : table) : dup_ordered t -> (forall k v, In (k, v) t -> exists m r, k = be_fixed 8 m ++ r /\ m < 2 ^ 64) -> StronglySorted (fun a b => block_of a <= block_of b) t.
Proof.
  intros H K. induction t as [|[k v] t IH]; [constructor|]. apply sorted_cons_inv in H as (H & F). constructor; [apply IH; [exact H|]; intros k' v' I; apply (K k' v'); now right|]. apply Forall_forall. intros [k' v'] I.
  destruct (K k v (or_introl eq_refl)) as (m & r & -> & Hm). destruct (K k' v' (or_intror I)) as (m' & r' & -> & Hm'). rewrite !block_of_key by assumption. specialize (F _ I). unfold pair_lt in F. cbn [fst snd] in F. apply orb_true_iff in F as [F|F].
  - apply lex_app in F; [|now rewrite !be_fixed_length]. destruct F as [F|(F & _)]; [apply be8_lt in F; [lia|assumption..]|]. apply be8_inj in F; [lia|assumption..].
  - apply andb_true_iff in F as (F & _). apply eqb_true in F. apply app_parts in F as (F & _); [|now rewrite !be_fixed_length]. apply be8_inj in F; [lia|assumption..].
Qed.

Lemma parts_at (a b : bytes) k : length a = k -> firstn k (a ++ b) = a /\ skipn k (a ++ b) = b.
Proof. intros <-. rewrite firstn_app, skipn_app, firstn_all, skipn_all, Nat.sub_diag. cbn [firstn skipn]. split; [apply app_nil_r|reflexivity]. Qed.

(** ** Codes *)
Lemma erase_key_ordered t k : ordered t -> ordered (erase_key t k).
Proof. intros H. unfold erase_key. now apply filter_sorted. Qed.
Lemma erase_key_dup t k : dup_ordered t -> dup_ordered (erase_key t k).
Proof. intros H. unfold erase_key. now apply filter_sorted. Qed.
Lemma lookup_erase_key t k k' : ordered t -> k' <> k -> lookup (erase_key t k) k' = lookup t k'.
Proof.
  intros H N. pose proof (erase_key_ordered t k H) as H'. destruct (lookup t k') as [v|] eqn:E.
  - apply lookup_spec in E; [|exact H]. apply lookup_spec; [exact H'|]. apply erase_key_in. auto.
  - apply lookup_none; [exact H'|]. intros v I. apply erase_key_in in I as (_ & I). apply lookup_none with (v := v) in E; auto.
Qed.
Lemma erase_codes_spec count : forall i a codes, ordered codes -> N.of_nat count <= i ->
  ordered (erase_codes count i a codes) /\ forall k, (forall j, i - N.of_nat count < j -> j <= i -> k <> storage_prefix a j) -> lookup (erase_codes count i a codes) k = lookup codes k.
Proof.
  induction count as [|count IH]; intros i a codes H L; [split; auto|]. cbn [erase_codes]. destruct (IH (i - 1) a (erase_key codes (storage_prefix a i))) as (A & B); [now apply erase_key_ordered|lia|]. split; [exact A|]. intros k K. rewrite B; [|intros j J1 J2; apply K; lia]. apply lookup_erase_key; [exact H|]. apply K; lia.
Qed.

(** ** One account *)
Lemma fill_code (codes : table) a x c : wf_account x ->
  (0 < a_incarnation x -> lookup codes (storage_prefix (addr a) (a_incarnation x)) = Some (a_code_hash x)) -> (a_incarnation x = 0 -> a_code_hash x = kEmptyHash) ->
  obind (err_handler (decode_account (before_image (Some x) c))) (fun acc =>
    if (0 <? a_incarnation acc) && bytes_eqb (a_code_hash acc) kEmptyHash then
      match lookup codes (storage_prefix (addr a) (a_incarnation acc)) with
      | None => Throws
      | Some h => if (length h <? 32)%nat then Undefined else Done (mkAccount (a_nonce acc) (a_balance acc) (firstn 32 h) (a_incarnation acc))
      end
    else Done acc) = Done x.
Proof.
  intros W Hc Hp. assert (L : length (a_code_hash x) = 32%nat) by (destruct W as (_ & _ & (L & _) & _); unfold blen in L; lia).
  assert (Full : forall y, a_nonce y = a_nonce x -> a_balance y = a_balance x -> a_incarnation y = a_incarnation x -> (a_code_hash y = a_code_hash x \/ a_code_hash y = kEmptyHash) ->
    (if (0 <? a_incarnation y) && bytes_eqb (a_code_hash y) kEmptyHash then
      match lookup codes (storage_prefix (addr a) (a_incarnation y)) with
      | None => Throws
      | Some h => if (length h <? 32)%nat then Undefined else Done (mkAccount (a_nonce y) (a_balance y) (firstn 32 h) (a_incarnation y))
      end
    else Done y) = Done x).
  { intros [yn yb yc yi] En Eb Ei Ec. cbn [a_nonce a_balance a_code_hash a_incarnation] in *. subst yn yb yi. destruct (N.ltb_spec 0 (a_incarnation x)) as [P|P]; cbn [andb].
    - destruct (eqb_spec yc kEmptyHash) as [E|E].
      + rewrite Hc by exact P. rewrite L. cbn [Nat.ltb Nat.leb]. rewrite <- L, firstn_all. now destruct x.
      + destruct Ec as [ -> |]; [now destruct x|contradiction].
    - specialize (Hp ltac:(lia)). destruct Ec as [ -> | -> ]; [now destruct x|]. rewrite <- Hp. now destruct x. }
  unfold before_image. rewrite decode_encode_account by exact W. cbn [err_handler obind]. destruct c; apply Full; try reflexivity; [right; reflexivity|left; reflexivity].
Qed.
Lemma image_nonempty x c : before_image (Some x) c <> [].
Proof. unfold before_image, encode_for_storage. discriminate. Qed.
Lemma unwind_account_step m a s state codes : unwind_step (be_fixed 8 m, addr a ++ s) state codes = collect_for_unwind (addr a) s state codes.
Proof.
  unfold unwind_step, convert_to_db_format. cbn [fst snd]. rewrite be_fixed_length. cbn [Nat.eqb]. rewrite app_length, addr_len. destruct (Nat.ltb_spec (20 + length s) 20) as [X|_]; [lia|]. cbn [obind].
  destruct (parts_at (addr a) s 20 (addr_len a)) as (-> & ->). reflexivity.
Qed.

Lemma opt_account_dec (x y : option account) : {x = y} + {x <> y}.
Proof. decide equality. decide equality; try apply N.eq_dec; apply bytes_dec. Qed.

(** ** All accounts *)
Section Accounts.
  Variables (d : database) (acct : N -> N -> option account) (n top : N).
  Hypothesis H : account_history d acct n top.
  Hypothesis W : wf_db d.
  Hypothesis Top : top < 2 ^ 64.
  (** The account at [a] once the records of [l] are undone. *)
  Fixpoint restored (l : list entry) (a : N) : option account :=
    match l with
    | [] => acct top a
    | e :: r =>
      if bytes_eqb (firstn 20 (snd e)) (addr a)
      then match acct (block_of e - 1) a with Some x => Some x | None => restored r a end
      else restored r a
    end.
  Definition account_record (e : entry) : Prop := exists m a s, e = (be_fixed 8 m, addr a ++ s) /\ n < m /\ m <= top /\ a < 2 ^ 160 /\ s = before_image (acct (m - 1) a) (acct m a).
  Lemma restored_spec l : forall a, (exists l1 e x l2, l = l1 ++ e :: l2 /\ firstn 20 (snd e) = addr a /\ acct (block_of e - 1) a = Some x /\ restored l a = Some x
        /\ (forall y, In y l1 -> firstn 20 (snd y) = addr a -> acct (block_of y - 1) a = None))
      \/ (restored l a = acct top a /\ (forall y, In y l -> firstn 20 (snd y) = addr a -> acct (block_of y - 1) a = None)).
  Proof using.
    induction l as [|e l IH]; intros a; [right; split; [reflexivity|intros y []]|]. cbn [restored].
    assert (Step : (firstn 20 (snd e) = addr a -> acct (block_of e - 1) a = None) ->
      (exists l1 e0 x l2, e :: l = l1 ++ e0 :: l2 /\ firstn 20 (snd e0) = addr a /\ acct (block_of e0 - 1) a = Some x /\ restored l a = Some x
        /\ (forall y, In y l1 -> firstn 20 (snd y) = addr a -> acct (block_of y - 1) a = None))
      \/ (restored l a = acct top a /\ (forall y, In y (e :: l) -> firstn 20 (snd y) = addr a -> acct (block_of y - 1) a = None))).
    { intros Ne. destruct (IH a) as [(l1 & e' & x & l2 & -> & A & B & C & D)|(A & B)].
      - left. exists (e :: l1), e', x, l2. split; [reflexivity|]. split; [exact A|]. split; [exact B|]. split; [exact C|]. intros y [ <- |I]; [exact Ne|now apply D].
      - right. split; [exact A|]. intros y [ <- |I]; [exact Ne|now apply B]. }
    match goal with |- context [bytes_eqb ?p ?q] => destruct (eqb_spec p q) as [E|E] end; [|apply Step; intros X; contradiction].
    destruct (acct (block_of e - 1) a) as [x|] eqn:X; [|apply Step; auto]. left. exists [], e, x, l. split; [reflexivity|]. split; [exact E|]. split; [exact X|]. split; [reflexivity|]. intros y [].
  Qed.
  (** A restored account is one of the history, from before the oldest record on. *)
  Lemma restored_in l a x m : n < m -> m <= top -> Forall (fun e => m <= block_of e /\ block_of e <= top) l -> restored l a = Some x -> exists m', m - 1 <= m' /\ m' <= top /\ acct m' a = Some x.
  Proof using.
    clear Top W H. intros Hm Ht F E. destruct (restored_spec l a) as [(l1 & e & y & l2 & -> & A & B & C & D)|(A & B)].
    - rewrite E in C. injection C as <-. apply Forall_app in F as (_ & F). apply Forall_cons_iff in F as ((F1 & F2) & _). exists (block_of e - 1). split; [lia|]. split; [lia|exact B].
    - exists top. split; [lia|]. split; [lia|congruence].
  Qed.
  Definition undone (l : list entry) (state codes : table) : Prop :=
    dup_ordered state /\ ordered codes
    /\ (forall a v, a < 2 ^ 160 -> In (addr a, v) state <-> exists x, restored l a = Some x /\ v = encode_for_storage x false)
    /\ (forall k v, length k <> 20%nat -> In (k, v) state <-> In (k, v) (d kPlainState))
    /\ (forall a i, a < 2 ^ 160 -> i < 2 ^ 64 -> (forall x, restored l a = Some x -> i <= a_incarnation x) -> lookup codes (storage_prefix (addr a) i) = lookup (d kPlainContractCode) (storage_prefix (addr a) i)).
  Lemma unwind_accounts l : Forall account_record l -> StronglySorted (fun a b => block_of a <= block_of b) l ->
    exists state codes, unwind_all l (d kPlainState) (d kPlainContractCode) = Done (state, codes) /\ undone l state codes.
  Proof using H W Top.
    induction l as [|e l IH]; intros R S1.
    - exists (d kPlainState), (d kPlainContractCode). split; [reflexivity|]. split; [exact (wf_multi d kPlainState W eq_refl)|]. split; [exact (wf_single d kPlainContractCode W eq_refl)|]. split; [intros a v Ha; apply (ah_current _ _ _ _ H); exact Ha|]. split; auto.
    - apply Forall_cons_iff in R as (Re & R). apply sorted_cons_inv in S1 as (S1 & F). destruct (IH R S1) as (st & cs & E & (O1 & O2 & A & B & C)). cbn [unwind_all]. rewrite E. cbn [obind].
      destruct Re as (m & a & s & -> & Hm & Ht & Ha & Es). rewrite unwind_account_step.
      assert (Bl : block_of (be_fixed 8 m, addr a ++ s) = m) by (apply block_of_key0; lia).
      assert (Fm : Forall (fun e => m <= block_of e /\ block_of e <= top) l).
      { apply Forall_forall. intros y Iy. split; [rewrite <- Bl; now apply F|]. rewrite Forall_forall in R. destruct (R y Iy) as (m' & a' & s' & -> & _ & Ht' & _). rewrite block_of_key0 by lia. exact Ht'. }
      assert (Rs : forall b, restored ((be_fixed 8 m, addr a ++ s) :: l) b = if bytes_eqb (addr a) (addr b) then match acct (m - 1) b with Some x => Some x | None => restored l b end else restored l b).
      { intros b. cbn [restored snd]. rewrite Bl. destruct (parts_at (addr a) s 20 (addr_len a)) as (-> & _). reflexivity. }
      unfold collect_for_unwind. rewrite addr_len. cbn [Nat.eqb]. destruct (acct (m - 1) a) as [x|] eqn:Ex.
      + assert (Wx : wf_account x) by exact (ah_wf _ _ _ _ H _ _ _ Ex). assert (Ix : a_incarnation x < 2 ^ 64) by apply Wx.
        assert (Le : forall y, restored l a = Some y -> a_incarnation x <= a_incarnation y).
        { intros y Ey. destruct (restored_in l a y m Hm Ht Fm Ey) as (m' & M1 & M2 & M3). apply (ah_incs _ _ _ _ H (m - 1) m' a); [lia|lia|lia|exact Ex|exact M3]. }
        assert (Cx : 0 < a_incarnation x -> lookup cs (storage_prefix (addr a) (a_incarnation x)) = Some (a_code_hash x)).
        { intros P. rewrite C; [|exact Ha|exact Ix|exact Le]. apply (ah_codes _ _ _ _ H (m - 1)); [lia|lia|exact Ex|exact P]. }
        assert (Px : a_incarnation x = 0 -> a_code_hash x = kEmptyHash) by (apply (ah_plain _ _ _ _ H (m - 1) a x); [lia|lia|exact Ex]).
        pose proof (fill_code cs a x (acct m a) Wx Cx Px) as Fc. rewrite <- Es in Fc. destruct s as [|s0 s]; [now contradiction (image_nonempty x (acct m a))|]. set (img := s0 :: s) in *.
        destruct (err_handler (decode_account img)) as [dec| |]; cbn [obind] in Fc |- *; try discriminate. rewrite Fc. cbn [obind]. clear Fc dec.
        assert (Lk : exists cs', match lookup st (addr a) with None => Done cs | Some e => do i := err_handler (extract_incarnation e) in Done (erase_codes (N.to_nat (i - a_incarnation x)) i (addr a) cs) end = Done cs'
             /\ ordered cs' /\ forall b i, b < 2 ^ 160 -> i < 2 ^ 64 -> (b = a -> i <= a_incarnation x) -> lookup cs' (storage_prefix (addr b) i) = lookup cs (storage_prefix (addr b) i)).
        { destruct (lookup st (addr a)) as [enc|] eqn:El.
          - apply lookup_dup_some in El; [|exact O1]. apply A in El; [|exact Ha]. destruct El as (y & Ey & ->).
            assert (Wy : wf_account y). { destruct (restored_in l a y m Hm Ht Fm Ey) as (m' & _ & _ & M3). exact (ah_wf _ _ _ _ H _ _ _ M3). }
            rewrite extract_incarnation_encode by exact Wy. cbn [err_handler obind]. eexists. split; [reflexivity|]. specialize (Le y Ey).
            destruct (erase_codes_spec (N.to_nat (a_incarnation y - a_incarnation x)) (a_incarnation y) (addr a) cs O2) as (X1 & X2); [lia|]. split; [exact X1|]. intros b i Hb Hi Hx. apply X2. intros j J1 J2 K. assert (j < 2 ^ 64) by (destruct Wy as (_ & _ & _ & Wy); unfold u64 in Wy; lia). apply prefix_inj in K as (K1 & K2); try assumption. specialize (Hx K1). lia.
          - exists cs. split; [reflexivity|]. split; [exact O2|]. auto. }
        destruct Lk as (cs' & Ek & O2' & Ck). rewrite Ek. cbn [obind]. eexists _, cs'. split; [reflexivity|].
        pose proof (erase_key_dup st (addr a) O1) as O1'. split; [now apply put_dup_ordered|]. split; [exact O2'|].
        split; [|split].
        * intros b v Hb. rewrite put_dup_in by exact O1'. rewrite erase_key_in. cbn [fst]. rewrite Rs. destruct (eqb_spec (addr a) (addr b)) as [Eab|Nab].
          -- apply addr_inj in Eab; [|assumption..]. subst b. rewrite Ex. split.
             ++ intros [X|(X & _)]; [|contradiction]. exists x. split; [reflexivity|]. now apply pair_equal_spec in X as (_ & ->).
             ++ intros (y & Y1 & ->). left. injection Y1 as <-. reflexivity.
          -- rewrite A by exact Hb. split; [intros [X|(_ & X)]; [apply pair_equal_spec in X as (X & _); congruence|exact X]|]. intros X. right. split; [congruence|exact X].
        * intros k v Hk. rewrite put_dup_in by exact O1'. rewrite erase_key_in. cbn [fst]. rewrite <- B by exact Hk. assert (k <> addr a) by (intros ->; now rewrite addr_len in Hk). split; [intros [X|(_ & X)]; [apply pair_equal_spec in X as (X & _); contradiction|exact X]|]. auto.
        * intros b i Hb Hi Hx. rewrite Rs in Hx. destruct (eqb_spec (addr a) (addr b)) as [Eab|Nab].
          -- apply addr_inj in Eab; [|assumption..]. subst b. rewrite Ex in Hx. specialize (Hx x eq_refl). rewrite Ck by auto. apply C; [exact Ha|exact Hi|]. intros y Ey. specialize (Le y Ey). lia.
          -- rewrite Ck; [|exact Hb|exact Hi|congruence]. now apply C.
      + unfold before_image in Es. subst s. exists st, (erase_key cs (addr a)). split; [reflexivity|]. split; [exact O1|]. split; [now apply erase_key_ordered|].
        assert (Rs' : forall b, b < 2 ^ 160 -> restored ((be_fixed 8 m, addr a ++ []) :: l) b = restored l b).
        { intros b Hb. rewrite Rs. destruct (eqb_spec (addr a) (addr b)) as [Eab|]; [|reflexivity]. apply addr_inj in Eab; [|assumption..]. subst b. now rewrite Ex. }
        split; [intros b v Hb; rewrite Rs' by exact Hb; now apply A|]. split; [exact B|]. intros b i Hb Hi Hx. rewrite Rs' in Hx by exact Hb. rewrite lookup_erase_key; [now apply C|exact O2|]. intros K. apply (f_equal (@length N)) in K. rewrite prefix_len, addr_len in K. discriminate.
  Qed.
  (** With all records after block n undone, the accounts of block n are there. *)
  Lemma constant_until (a p : N) : p <= top -> n <= p -> acct n a <> None -> (forall m, n < m -> m <= p -> acct (m - 1) a <> None -> acct m a = acct (m - 1) a) -> acct p a = acct n a.
  Proof using.
    clear H W Top. intros Hp Hn Sm Hc. replace p with (n + (p - n)) in * by lia. remember (p - n) as k eqn:Ek. clear Ek Hn p. revert Hp Hc. induction k as [|k IHk] using N.peano_ind; intros Hp Hc; [now rewrite N.add_0_r|].
    assert (E : acct (n + k) a = acct n a) by (apply IHk; [lia|]; intros m M1 M2; apply Hc; lia). specialize (Hc (n + N.succ k)). replace (n + N.succ k - 1) with (n + k) in Hc by lia. rewrite Hc; [exact E|lia|lia|congruence].
  Qed.
  Lemma restored_final pre post a : d kPlainAccountChangeSet = pre ++ post -> Forall account_record post -> Forall (fun e => block_of e <= n) pre -> StronglySorted (fun a b => block_of a <= block_of b) post -> n <= top -> a < 2 ^ 160 ->
    (acct n a = None -> forall m, n <= m -> m <= top -> acct m a = None) -> restored post a = acct n a.
  Proof using H Top.
    intros E R Fp So Hn Ha Hnone. destruct (acct n a) as [x|] eqn:Ex.
    - assert (Rec : forall m, n < m -> m <= top -> acct (m - 1) a <> None -> acct m a <> acct (m - 1) a -> exists e, In e post /\ block_of e = m /\ firstn 20 (snd e) = addr a).
      { intros m M1 M2 M3 M4. destruct (ah_changes _ _ _ _ H m a M1 M2 Ha M4) as (s & I). rewrite E in I. apply in_app_iff in I as [I|I]; [rewrite Forall_forall in Fp; specialize (Fp _ I); rewrite block_of_key0 in Fp by lia; lia|]. eexists. split; [exact I|]. split; [apply block_of_key0; lia|]. cbn [snd]. now apply parts_at. }
      rewrite <- Ex. destruct (restored_spec post a) as [(l1 & e & y & l2 & Ep & A & B & C & D)|(A & B)].
      + rewrite C, <- B. assert (Re : account_record e) by (rewrite Forall_forall in R; apply R; rewrite Ep; apply in_or_app; right; now left). destruct Re as (m & a' & s & -> & M1 & M2 & M3 & _). rewrite block_of_key0 in * by lia.
        apply constant_until; [lia|lia|congruence|]. intros j J1 J2 J3. assert (J4 : acct j a = acct (j - 1) a \/ acct j a <> acct (j - 1) a) by (destruct (opt_account_dec (acct j a) (acct (j - 1) a)); auto). destruct J4 as [J4|J4]; [exact J4|].
        destruct (Rec j J1 ltac:(lia) J3 J4) as (e' & I & Bj & Fj). exfalso. rewrite Ep in I, So. apply in_app_iff in I as [I|I]; [|].
        * rewrite <- Bj in J3. now apply J3, D.
        * apply sorted_app in So as (_ & So & _). apply sorted_cons_inv in So as (_ & So). destruct I as [ <- |I]; [rewrite block_of_key0 in Bj by lia; lia|]. specialize (So e' I). cbn beta in So. rewrite block_of_key0 in So by lia. lia.
      + rewrite A. apply constant_until; [lia|lia|congruence|]. intros j J1 J2 J3. assert (J4 : acct j a = acct (j - 1) a \/ acct j a <> acct (j - 1) a) by (destruct (opt_account_dec (acct j a) (acct (j - 1) a)); auto). destruct J4 as [J4|J4]; [exact J4|].
        destruct (Rec j J1 J2 J3 J4) as (e' & I & Bj & Fj). exfalso. apply J3. rewrite <- Bj. now apply B.
    - specialize (Hnone eq_refl). destruct (restored_spec post a) as [(l1 & e & y & l2 & Ep & A & B & C & D)|(A & B)]; [|rewrite A; apply Hnone; lia].
      assert (Re : account_record e) by (rewrite Forall_forall in R; apply R; rewrite Ep; apply in_or_app; right; now left). destruct Re as (m & a' & s & -> & M1 & M2 & M3 & _). rewrite block_of_key0 in B by lia. rewrite Hnone in B by lia. discriminate.
  Qed.
End Accounts.

(** ** Storage *)
Lemma unwind_slot_step m a i l s state codes :
  unwind_step (storage_change_key m (addr a) i, word l ++ s) state codes
  = Done (match s with [] => erase_first state (storage_prefix (addr a) i) | _ => put_dup (erase_first state (storage_prefix (addr a) i)) (storage_prefix (addr a) i) (word l ++ s) end, codes).
Proof.
  assert (L : length (addr a ++ be_fixed 8 i) = 28%nat) by (rewrite app_length, addr_len, be_fixed_length; reflexivity).
  assert (Lw : length (word l) = 32%nat) by apply be_fixed_length.
  unfold unwind_step, convert_to_db_format, storage_change_key. cbn [fst snd]. rewrite (app_length (be_fixed 8 m)), be_fixed_length, L. cbn [Nat.eqb Nat.add Nat.ltb Nat.leb orb]. rewrite app_length, Lw. destruct (Nat.leb_spec (32 + length s) 31) as [X|_]; [lia|].
  destruct (parts_at (be_fixed 8 m) (addr a ++ be_fixed 8 i) 8 (be_fixed_length 8 m)) as (_ & ->). destruct (parts_at (word l) s 32 Lw) as (-> & ->). rewrite (firstn_all2 (n := 28) (addr a ++ be_fixed 8 i)) by (rewrite L; apply Nat.le_refl). cbn [obind].
  unfold collect_for_unwind. rewrite app_length, L, Lw. cbn [Nat.eqb Nat.add Nat.ltb Nat.leb]. destruct (parts_at (addr a ++ be_fixed 8 i) (word l) 28 L) as (-> & ->). unfold find_multivalue. unfold storage_prefix, erase_first. destruct s; reflexivity.
Qed.
Section Slots.
  Variables (state0 codes0 : table) (a i : N).
  Hypothesis O : dup_ordered state0.
  Hypothesis U : forall v w, In (storage_prefix (addr a) i, v) state0 -> In (storage_prefix (addr a) i, w) state0 -> v = w.
  Hypothesis Ha : a < 2 ^ 160.
  Hypothesis Hi : i < 2 ^ 64.
  (** The records of the contract once the records of [l] are undone. *)
  Fixpoint contract_records (l : list entry) (v : bytes) : Prop :=
    match l with
    | [] => In (storage_prefix (addr a) i, v) state0
    | e :: r => if bytes_eqb (skipn 8 (fst e)) (storage_prefix (addr a) i) then skipn 32 (snd e) <> [] /\ v = snd e else contract_records r v
    end.
  Definition slot_record (e : entry) : Prop := exists m b j l s, e = (storage_change_key m (addr b) j, word l ++ s) /\ b < 2 ^ 160 /\ j < 2 ^ 64.
  Lemma contract_unique l : forall v w, contract_records l v -> contract_records l w -> v = w.
  Proof using U. clear Ha Hi O. induction l as [|e l IH]; intros v w; cbn [contract_records]; [apply U|]. destruct (bytes_eqb _ _); [intros (_ & ->) (_ & ->); reflexivity|apply IH]. Qed.
  Lemma unwind_slots l : Forall slot_record l ->
    exists state, unwind_all l state0 codes0 = Done (state, codes0) /\ dup_ordered state
      /\ (forall k v, (forall e, In e l -> skipn 8 (fst e) <> k) -> In (k, v) state <-> In (k, v) state0)
      /\ (forall v, In (storage_prefix (addr a) i, v) state <-> contract_records l v).
  Proof using O U.
    induction l as [|e l IH]; intros R.
    - exists state0. split; [reflexivity|]. split; [exact O|]. split; [reflexivity|]. reflexivity.
    - apply Forall_cons_iff in R as (Re & R). destruct (IH R) as (st & E & O1 & A & B). cbn [unwind_all]. rewrite E. cbn [obind]. destruct Re as (m & b & j & l0 & s & -> & Hb & Hj). rewrite unwind_slot_step.
      eexists. split; [reflexivity|]. pose proof (erase_first_sorted st (storage_prefix (addr b) j) O1) as O2.
      assert (Sk : skipn 8 (storage_change_key m (addr b) j) = storage_prefix (addr b) j) by apply (parts_at (be_fixed 8 m) (addr b ++ be_fixed 8 j) 8 (be_fixed_length 8 m)).
      split; [destruct s; [exact O2|now apply put_dup_ordered]|]. split.
      + intros k v N. assert (Nk : k <> storage_prefix (addr b) j) by (specialize (N _ (or_introl eq_refl)); cbn [fst] in N; rewrite Sk in N; congruence). rewrite <- A by (intros e' I; apply N; now right). destruct s as [|s0 s]; [now apply erase_first_other|]. rewrite put_dup_in by exact O2. rewrite erase_first_other by assumption. split; [intros [X|X]; [apply pair_equal_spec in X as (X & _); contradiction|exact X]|auto].
      + intros v. cbn [contract_records fst snd]. rewrite Sk. destruct (parts_at (word l0) s 32 (be_fixed_length 32 l0)) as (_ & Sw). destruct (eqb_spec (storage_prefix (addr b) j) (storage_prefix (addr a) i)) as [Ek|Nk].
        * rewrite Ek in *. assert (None' : forall v, ~ In (storage_prefix (addr a) i, v) (erase_first st (storage_prefix (addr a) i))) by (apply erase_first_same; [exact O1|]; intros x y X Y; apply B in X; apply B in Y; exact (contract_unique l x y X Y)).
          rewrite Sw. destruct s as [|s0 s]; [split; [intros X; now apply None' in X|intros (X & _); now contradiction X]|]. rewrite put_dup_in by exact O2. split; [intros [X|X]; [apply pair_equal_spec in X as (_ & ->); split; [discriminate|reflexivity]|now apply None' in X]|intros (_ & ->); now left].
        * rewrite <- B. destruct s as [|s0 s]; [apply erase_first_other; congruence|]. rewrite put_dup_in by exact O2. rewrite erase_first_other by congruence. split; [intros [X|X]; [apply pair_equal_spec in X as (X & _); congruence|exact X]|auto].
  Qed.
  Lemma contract_records_spec l v : contract_records l v ->
    (exists l1 e l2, l = l1 ++ e :: l2 /\ skipn 8 (fst e) = storage_prefix (addr a) i /\ skipn 32 (snd e) <> [] /\ v = snd e /\ (forall y, In y l1 -> skipn 8 (fst y) <> storage_prefix (addr a) i))
    \/ (In (storage_prefix (addr a) i, v) state0 /\ (forall y, In y l -> skipn 8 (fst y) <> storage_prefix (addr a) i)).
  Proof using.
    clear O U Ha Hi. induction l as [|e l IH]; cbn [contract_records]; intros C; [right; split; [exact C|intros y []]|]. match goal with C : context [bytes_eqb ?p ?q] |- _ => destruct (eqb_spec p q) as [E|E] end.
    - destruct C as (C1 & ->). left. exists [], e, l. split; [reflexivity|]. split; [exact E|]. split; [exact C1|]. split; [reflexivity|]. intros y [].
    - destruct (IH C) as [(l1 & e' & l2 & -> & A & B & D & F)|(A & B)]; [left; exists (e :: l1), e', l2; split; [reflexivity|]; split; [exact A|]; split; [exact B|]; split; [exact D|]; intros y [ <- |I]; auto|right; split; [exact A|]; intros y [ <- |I]; auto].
  Qed.
  Lemma contract_records_first l1 e l2 : skipn 8 (fst e) = storage_prefix (addr a) i -> (forall y, In y l1 -> skipn 8 (fst y) <> storage_prefix (addr a) i) ->
    forall v, contract_records (l1 ++ e :: l2) v <-> skipn 32 (snd e) <> [] /\ v = snd e.
  Proof using.
    clear O U Ha Hi. intros E N v. induction l1 as [|x l1 IH]; cbn [app contract_records].
    - match goal with |- context [bytes_eqb ?p ?q] => destruct (eqb_spec p q) as [X|X] end; [reflexivity|contradiction].
    - match goal with |- context [bytes_eqb ?p ?q] => destruct (eqb_spec p q) as [X|X] end; [exfalso; apply (N x); [now left|exact X]|]. apply IH. intros y Iy. apply N. now right.
  Qed.
  Lemma contract_records_none l : (forall y, In y l -> skipn 8 (fst y) <> storage_prefix (addr a) i) -> forall v, contract_records l v <-> In (storage_prefix (addr a) i, v) state0.
  Proof using.
    clear O U Ha Hi. intros N v. induction l as [|x l1 IH]; cbn [contract_records]; [reflexivity|]. match goal with |- context [bytes_eqb ?p ?q] => destruct (eqb_spec p q) as [X|X] end; [exfalso; apply (N x); [now left|exact X]|]. apply IH. intros y Iy. apply N. now right.
  Qed.
  Lemma first_record (l : list entry) : (exists l1 e l2, l = l1 ++ e :: l2 /\ skipn 8 (fst e) = storage_prefix (addr a) i /\ (forall y, In y l1 -> skipn 8 (fst y) <> storage_prefix (addr a) i))
     \/ (forall y, In y l -> skipn 8 (fst y) <> storage_prefix (addr a) i).
  Proof using.
    clear O U Ha Hi. induction l as [|e l IH]; [right; intros y []|]. destruct (bytes_dec (skipn 8 (fst e)) (storage_prefix (addr a) i)) as [E|E]; [left; exists [], e, l; split; [reflexivity|]; split; [exact E|intros y []]|].
    destruct IH as [(l1 & e' & l2 & -> & A & B)|B]; [left; exists (e :: l1), e', l2; split; [reflexivity|]; split; [exact A|]; intros y [ <- |I]; auto|right; intros y [ <- |I]; auto].
  Qed.
End Slots.
Lemma read_slot bm_read (d : database) a i l x : dup_ordered (d kPlainState) -> x < 2 ^ 256 ->
  (forall s, In (storage_prefix (addr a) i, word l ++ s) (d kPlainState) <-> x <> 0 /\ s = zeroless_view (word x)) -> read_storage bm_read d a i l None = Done x.
Proof.
  intros O Hx R. unfold read_storage. destruct (find_value_suffix (d kPlainState) (storage_prefix (addr a) i) (word l)) as [s|] eqn:E.
  - apply find_value_suffix_spec in E as (E & _); [|exact O]. apply R in E as (_ & ->). destruct (Nat.ltb_spec 32 (length (zeroless_view (word x)))) as [X|_].
    + exfalso. destruct (zeroless_split (word x)) as (k & Ek & _). apply (f_equal (@length N)) in Ek. unfold word in Ek at 1. rewrite be_fixed_length, app_length in Ek. lia.
    + rewrite zeroless_value. unfold word. now rewrite be_to_N_be_fixed_small.
  - destruct (N.eq_dec x 0) as [ -> |N]; [reflexivity|]. exfalso. assert (I : In (storage_prefix (addr a) i, word l ++ zeroless_view (word x)) (d kPlainState)) by (apply R; auto).
    assert (X : find_value_suffix (d kPlainState) (storage_prefix (addr a) i) (word l) = Some (zeroless_view (word x))).
    { apply find_value_suffix_spec; [exact O|]. split; [exact I|]. intros s' I'. apply R in I' as (_ & ->). now left. }
    congruence.
Qed.
