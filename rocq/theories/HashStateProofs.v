(** Proofs for the HashState stage: the first run. *)
From Coq Require Import Permutation Sorting.Sorted.
From Verif Require Import Base BaseFacts RlpModel TypesModel DbTable DbModel DbSpec DbProofs EtlModel EtlSpec EtlProofs EtlLemmas UnwindModel UnwindProofs UnwindProofs2 HashStateModel HashStateSpec.

(** *** Appending *)
Lemma append_spec t k v : append t k v = match rev t with e :: _ => if lex_lt (fst e) k then Done (t ++ [(k, v)]) else Throws | [] => Done [(k, v)] end.
Proof. reflexivity. Qed.
Lemma ordered_snoc t e x : ordered (t ++ [e]) -> lex_lt (fst e) (fst x) = true -> ordered ((t ++ [e]) ++ [x]).
Proof.
  intros O L. induction t as [|y t IH]; cbn [app] in *; [repeat constructor; exact L|]. apply sorted_cons_inv in O as (O & F). constructor; [now apply IH|]. apply Forall_forall. intros z Iz. apply in_app_or in Iz as [Iz|[ <- |[]]]; [now apply F|].
  apply (lex_lt_trans (fst y) (fst e)); [apply F; apply in_or_app; right; now left|exact L].
Qed.
Lemma append_all_done l : forall t t', append_all t l = Done t' -> t' = t ++ l /\ (ordered t -> ordered (t ++ l)).
Proof.
  induction l as [|[k v] l IH]; intros t t' E; cbn [append_all] in E; [injection E as <-; rewrite app_nil_r; auto|]. cbn [fst snd] in E. unfold append in E.
  destruct (rev t) as [|e r] eqn:R.
  - cbn [obind] in E. apply IH in E as (-> & O). assert (t = []) by (rewrite <- (rev_involutive t), R; reflexivity). subst t. split; [reflexivity|]. intros _. apply O. repeat constructor.
  - destruct (lex_lt (fst e) k) eqn:L; [|discriminate]. cbn [obind] in E. apply IH in E as (-> & O). rewrite <- app_assoc in *. split; [reflexivity|]. intros Ot. apply O.
    assert (Et : t = rev r ++ [e]) by (rewrite <- (rev_involutive t), R; reflexivity). rewrite Et in *. rewrite <- app_assoc. cbn [app]. change (rev r ++ e :: [(k, v)]) with (rev r ++ [e] ++ [(k, v)]). rewrite app_assoc. now apply ordered_snoc.
Qed.
Lemma append_all_ordered l : forall t, ordered (t ++ l) -> append_all t l = Done (t ++ l).
Proof.
  induction l as [|[k v] l IH]; intros t O; cbn [append_all]; [now rewrite app_nil_r|]. cbn [fst snd]. unfold append. destruct (rev t) as [|e r] eqn:R.
  - assert (t = []) by (rewrite <- (rev_involutive t), R; reflexivity). subst t. cbn [obind]. rewrite (IH [(k, v)]); [reflexivity|exact O].
  - assert (Et : t = rev r ++ [e]) by (rewrite <- (rev_involutive t), R; reflexivity). assert (L : lex_lt (fst e) k = true).
    { apply sorted_app in O as (_ & _ & F). apply (F e (k, v)); [rewrite Et; apply in_or_app; right; now left|now left]. }
    rewrite L. cbn [obind]. rewrite IH; rewrite <- app_assoc; [reflexivity|exact O].
Qed.
Lemma append_all_cases t l : (exists t', append_all t l = Done t') \/ append_all t l = Throws.
Proof.
  revert t. induction l as [|[k v] l IH]; intros t; cbn [append_all]; [eauto|]. cbn [fst snd]. unfold append. destruct (rev t) as [|e r]; [cbn [obind]; apply IH|]. destruct (lex_lt (fst e) k); [cbn [obind]; apply IH|now right].
Qed.

(** *** Collecting and loading *)
Section Load.
  Context (pick : list (entry * nat) -> nat) (Pk : least_first pick).
  Lemma load_append_eq t es : Forall fits es -> Forall (fun e => fst e <> [] \/ snd e <> []) es -> total_size es < 2 ^ 64 -> exists l, in_order l /\ Permutation l es /\ load_append pick t es = append_all t l.
  Proof using Pk.
    intros F Ne B. destruct (load_all es F Ne B) as (l & O & P & H). exists l. split; [exact O|]. split; [exact P|]. destruct (H (512 * 2 ^ 20) pick (length es) Pk (le_n _)) as (c & E). unfold load_append. now rewrite E.
  Qed.
  Lemma load_append_done t es t' : Forall fits es -> Forall (fun e => fst e <> [] \/ snd e <> []) es -> total_size es < 2 ^ 64 -> load_append pick t es = Done t' ->
    exists l, t' = t ++ l /\ Permutation l es /\ (ordered t -> ordered t').
  Proof using Pk. intros F Ne B E. destruct (load_append_eq t es F Ne B) as (l & _ & P & E'). rewrite E' in E. apply append_all_done in E as (-> & O). exists l. auto. Qed.
  Lemma in_order_ordered l : in_order l -> NoDup (map fst l) -> ordered l.
  Proof.
    induction l as [|e l IH]; intros O N; [constructor|]. apply sorted_cons_inv in O as (O & F). inversion N as [|? ? N1 N2]; subst. constructor; [now apply IH|]. apply Forall_forall. intros x Ix. pose proof (F x Ix) as Hx. unfold pair_lt in Hx. apply orb_false_iff in Hx as (L & _).
    destruct (lex_cmp (fst e) (fst x)) as [X|[X|X]]; [exact X| |congruence]. exfalso. apply N1. rewrite X. now apply in_map.
  Qed.
  Lemma load_append_fresh es : Forall fits es -> Forall (fun e => fst e <> [] \/ snd e <> []) es -> total_size es < 2 ^ 64 -> NoDup (map fst es) -> exists l, load_append pick [] es = Done l /\ Permutation l es /\ ordered l.
  Proof using Pk.
    intros F Ne B N. destruct (load_append_eq [] es F Ne B) as (l & O & P & E). exists l. assert (Ol : ordered l) by (apply in_order_ordered; [exact O|]; apply (Permutation_NoDup (l := map fst es)); [apply Permutation_map; now symmetry|exact N]).
    split; [|auto]. rewrite E. exact (append_all_ordered l [] Ol).
  Qed.
  Lemma append_all_above l : forall s k0 v t', append_all (s ++ [(k0, v)]) l = Done t' -> forall e, In e l -> lex_lt k0 (fst e) = true.
  Proof.
    induction l as [|[k1 v1] l IH]; intros s k0 v t' X e; [intros []|]. cbn [append_all fst snd] in X. unfold append in X. rewrite rev_app_distr in X. cbn [rev app fst] in X. destruct (lex_lt k0 k1) eqn:L; [|discriminate]. cbn [obind] in X. intros [ <- |I]; [exact L|]. apply (lex_lt_trans _ k1); [exact L|]. now apply (IH _ _ _ _ X).
  Qed.
  Lemma append_all_nodup l : forall t t', append_all t l = Done t' -> NoDup (map fst l).
  Proof.
    induction l as [|[k v] l IH]; intros t t' X; [constructor|]. cbn [append_all fst snd] in X. cbn [map fst].
    assert (Y : exists t1, append_all (t1 ++ [(k, v)]) l = Done t').
    { unfold append in X. destruct (rev t) as [|e r]; [exists []; exact X|]. destruct (lex_lt (fst e) k); [|discriminate]. exists t. exact X. }
    destruct Y as (t1 & Y). constructor; [|exact (IH _ _ Y)]. intros I. apply in_map_iff in I as (e & Ek & I). pose proof (append_all_above _ _ _ _ _ Y e I) as L. rewrite Ek, lex_lt_irrefl in L. discriminate.
  Qed.
  Lemma load_append_double t es : Forall fits es -> Forall (fun e => fst e <> [] \/ snd e <> []) es -> total_size es < 2 ^ 64 -> ~ NoDup (map fst es) -> load_append pick t es = Throws.
  Proof using Pk.
    intros F Ne B N. destruct (load_append_eq t es F Ne B) as (l & O & P & E). rewrite E. destruct (append_all_cases t l) as [(t' & X)|X]; [|exact X]. exfalso. apply N.
    apply (Permutation_NoDup (l := map fst l)); [now apply Permutation_map|]. exact (append_all_nodup _ _ _ X).
  Qed.
  Lemma load_append_cases t es : Forall fits es -> Forall (fun e => fst e <> [] \/ snd e <> []) es -> total_size es < 2 ^ 64 -> (exists t', load_append pick t es = Done t') \/ load_append pick t es = Throws.
  Proof using Pk. intros F Ne B. destruct (load_append_eq t es F Ne B) as (l & _ & _ & E). rewrite E. apply append_all_cases. Qed.
End Load.

(** *** What is collected *)
Lemma tail_of {A} (l : list A) : (28 <= length l)%nat -> skipn 8 (skipn 20 l) = skipn 28 l.
Proof. intros _. do 20 (destruct l as [|? l]; [reflexivity|]). reflexivity. Qed.
Lemma copies (h i g : bytes) : length h = 32%nat -> length i = 8%nat -> length g = 32%nat -> copy_at (copy_at (copy_at (zeros 72) 0 h) 20 i) 28 g = firstn 20 h ++ i ++ g ++ zeros 12.
Proof.
  intros Lh Li Lg. do 32 (destruct h as [|? h]; [discriminate|]). destruct h; [|discriminate]. do 8 (destruct i as [|? i]; [discriminate|]). destruct i; [|discriminate]. do 32 (destruct g as [|? g]; [discriminate|]). destruct g; [|discriminate]. reflexivity.
Qed.
Section Clean.
  Context (keccak : bytes -> bytes) (Hk : hash_length keccak).
  Definition of_account (e : entry) : bool := Nat.eqb (length (fst e)) 20.
  Definition hash_account (e : entry) : entry := (keccak (fst e), snd e).
  Definition slot_key (key : bytes) : bytes := firstn 20 (keccak (firstn 20 key)) ++ firstn 8 (skipn 20 key) ++ keccak (skipn 28 key) ++ zeros 12.
  Definition hash_slot (e : entry) : entry := (slot_key (fst e), snd e).
  Lemma clean_key key : length key = 28%nat -> clean_storage_key keccak key = Done (slot_key key).
  Proof using Hk.
    intros L. unfold clean_storage_key. rewrite L. cbn [Nat.ltb Nat.leb]. f_equal. unfold slot_key.
    assert (Er : skipn 8 (skipn 20 key) = skipn 28 key) by (apply tail_of; lia). rewrite Er. assert (Li : length (firstn 8 (skipn 20 key)) = 8%nat) by (rewrite firstn_length, skipn_length; lia).
    apply copies; [apply Hk|exact Li|apply Hk].
  Qed.
  Lemma clean_entries_eq (state : table) : (forall k v, In (k, v) state -> length k = 20%nat \/ length k = 28%nat) ->
    clean_entries keccak state = Done (map hash_account (filter of_account state), map hash_slot (filter (fun e => negb (of_account e)) state)).
  Proof using Hk.
    induction state as [|[k v] r IH]; intros H; [reflexivity|]. cbn [clean_entries]. assert (L : length k = 20%nat \/ length k = 28%nat) by (apply (H k v); now left). specialize (IH (fun k' v' I => H k' v' (or_intror I))).
    destruct k as [|b k0] eqn:Ek; [destruct L; discriminate|]. rewrite <- Ek in *. clear Ek. destruct L as [L|L]; unfold of_account; cbn [filter fst]; rewrite L; cbn [Nat.eqb negb]; fold of_account.
    - rewrite IH. reflexivity.
    - rewrite clean_key by exact L. cbn [obind]. rewrite IH. reflexivity.
  Qed.
  Definition code_key (key : bytes) : bytes := keccak (firstn 20 key) ++ firstn 8 (skipn 20 key).
  Definition hash_code (e : entry) : entry := (code_key (fst e), snd e).
  Lemma clean_codes_eq (codes : table) : (forall k v, In (k, v) codes -> length k = 28%nat) -> clean_codes keccak codes = Done (map hash_code codes).
  Proof using Type.
    induction codes as [|[k v] r IH]; intros H; [reflexivity|]. cbn [clean_codes]. rewrite (H k v) by now left. cbn [Nat.ltb Nat.leb]. rewrite IH; [reflexivity|]. intros k' v' I. apply (H k' v'). now right.
  Qed.
  Lemma total_map (f : entry -> entry) (l : table) : (forall e, In e l -> entry_size (f e) + 8 <= 4 * (entry_size e + 8)) -> total_size (map f l) <= 4 * total_size l.
  Proof using Type. induction l as [|e l IH]; intros H; [reflexivity|]. cbn [map total_size fold_right]. fold (total_size (map f l)) (total_size l). pose proof (H e (or_introl eq_refl)) as A. pose proof (IH (fun x I => H x (or_intror I))) as B. lia. Qed.
  Lemma total_filter (p : entry -> bool) (l : table) : total_size (filter p l) <= total_size l.
  Proof using Type. induction l as [|e l IH]; [reflexivity|]. cbn [filter]. destruct (p e); cbn [total_size fold_right]; fold (total_size (filter p l)) (total_size l); lia. Qed.
  Lemma slot_key_length key : length key = 28%nat -> length (slot_key key) = 72%nat.
  Proof using Hk. intros L. unfold slot_key, zeros. rewrite !app_length, !firstn_length, skipn_length, repeat_length, !Hk. lia. Qed.
  Lemma code_key_length key : length key = 28%nat -> length (code_key key) = 40%nat.
  Proof using Hk. intros L. unfold code_key. rewrite !app_length, !firstn_length, skipn_length, !Hk. lia. Qed.

  Definition ready (l : list entry) : Prop := Forall fits l /\ Forall (fun e => fst e <> [] \/ snd e <> []) l /\ total_size l < 2 ^ 64.
  Lemma ready_map (f : entry -> entry) (l : table) n : Forall fits l -> total_size l < 2 ^ 60 -> (0 < n)%nat -> (n <= 72)%nat -> (forall e, In e l -> (20 <= length (fst e))%nat /\ snd (f e) = snd e /\ length (fst (f e)) = n /\ (n <= 32 \/ 28 <= length (fst e))%nat) -> ready (map f l).
  Proof using Type.
    intros F B N1 N2 H. split; [|split].
    - rewrite Forall_forall in *. intros x Ix. apply in_map_iff in Ix as (e & <- & Ie). destruct (H e Ie) as (_ & E & L & _). destruct (F e Ie) as (_ & Fv). unfold fits. rewrite E. split; [|exact Fv]. unfold blen. rewrite L. apply (N.le_lt_trans _ 72); [lia|reflexivity].
    - rewrite Forall_forall. intros x Ix. apply in_map_iff in Ix as (e & <- & Ie). destruct (H e Ie) as (_ & _ & L & _). left. intros X. pose proof (eq_trans (eq_sym L) (f_equal (@length N) X)) as Y. cbn [length] in Y. clear - Y N1. lia.
    - apply (N.le_lt_trans _ (4 * total_size l)); [|change (2 ^ 64) with (16 * 2 ^ 60); lia]. apply total_map. intros e Ie. destruct (H e Ie) as (L1 & E & L & L2). unfold entry_size, blen. rewrite E, L. lia.
  Qed.
  Lemma forall_filter {A} (P : A -> Prop) p l : Forall P l -> Forall P (filter p l).
  Proof using Type. rewrite !Forall_forall. intros H x I. apply filter_In in I as (I & _). auto. Qed.
  Lemma ready_accounts (t : table) : collectable t -> ready (map hash_account (filter of_account t)).
  Proof using Hk.
    intros (F & B). apply (ready_map _ _ 32); [now apply forall_filter|eapply N.le_lt_trans; [apply total_filter|exact B]|lia|lia|]. intros e I. apply filter_In in I as (_ & L). unfold of_account in L. apply Nat.eqb_eq in L. cbn [fst snd hash_account]. rewrite Hk, L. split; [lia|]. split; [reflexivity|]. split; [reflexivity|]. lia.
  Qed.
  Lemma ready_slots (t : table) : collectable t -> (forall k v, In (k, v) t -> length k = 20%nat \/ length k = 28%nat) -> ready (map hash_slot (filter (fun e => negb (of_account e)) t)).
  Proof using Hk.
    intros (F & B) H. apply (ready_map _ _ 72); [now apply forall_filter|eapply N.le_lt_trans; [apply total_filter|exact B]|lia|lia|]. intros [k v] I. apply filter_In in I as (I & L). unfold of_account in L. apply negb_true_iff, Nat.eqb_neq in L. cbn [fst] in L. destruct (H k v I) as [X|X]; [contradiction|]. cbn [fst snd hash_slot]. rewrite slot_key_length by exact X. rewrite X. split; [lia|]. split; [reflexivity|]. split; [reflexivity|]. lia.
  Qed.
  Lemma ready_codes (t : table) : collectable t -> (forall k v, In (k, v) t -> length k = 28%nat) -> ready (map hash_code t).
  Proof using Hk.
    intros (F & B) H. apply (ready_map _ _ 40); [exact F|exact B|lia|lia|]. intros [k v] I. cbn [fst snd hash_code]. rewrite code_key_length by exact (H k v I). rewrite (H k v I). split; [lia|]. split; [reflexivity|]. split; [reflexivity|]. lia.
  Qed.
End Clean.

(** *** The first run *)
Lemma sorted_nodup (t : table) : ordered t -> NoDup t.
Proof. induction t as [|e t IH]; intros O; [constructor|]. apply sorted_cons_inv in O as (O & F). constructor; [|now apply IH]. intros I. apply F in I. rewrite lex_lt_irrefl in I. discriminate. Qed.
Lemma wf_nodup d : wf_db d -> NoDup (d kPlainState).
Proof. intros W. pose proof (wf_multi d kPlainState W eq_refl) as O. induction (d kPlainState) as [|e t IH]; [constructor|]. apply sorted_cons_inv in O as (O & F). constructor; [|now apply IH]. intros I. apply F in I. rewrite pair_lt_irrefl in I. discriminate. Qed.
Lemma nodup_map_filter {A B} (f : A -> B) (l : list A) p : NoDup l -> (forall x y, In x l -> In y l -> p x = true -> p y = true -> f x = f y -> x = y) -> NoDup (map f (filter p l)).
Proof.
  induction l as [|x l IH]; intros N H; [constructor|]. inversion N as [|? ? N1 N2]; subst. assert (IH' : NoDup (map f (filter p l))) by (apply IH; [exact N2|]; intros a b Ia Ib; apply H; now right). cbn [filter]. destruct (p x) eqn:Px; [|exact IH']. cbn [map]. constructor; [|exact IH'].
  intros I. apply in_map_iff in I as (y & E & I). apply filter_In in I as (I & Py). assert (y = x) by (apply H; [now right|now left|exact Py|exact Px|exact E]). now subst y.
Qed.
Lemma nodup_map_inj {A B} (f : A -> B) (l : list A) x y : NoDup (map f l) -> In x l -> In y l -> f x = f y -> x = y.
Proof.
  induction l as [|a l IH]; intros N Ix Iy E; [destruct Ix|]. cbn [map] in N. inversion N as [|? ? N1 N2]; subst. destruct Ix as [ -> |Ix], Iy as [ -> |Iy]; [reflexivity| | |now apply IH].
  - exfalso. apply N1. rewrite E. now apply in_map.
  - exfalso. apply N1. rewrite <- E. now apply in_map.
Qed.
Lemma filter_all {A} (l : list A) : filter (fun _ => true) l = l.
Proof. induction l as [|x l IH]; [reflexivity|]. cbn [filter]. now rewrite IH. Qed.
Lemma known_hashstate : is_known_stage kHashStateKey = true.
Proof. vm_compute. reflexivity. Qed.
Lemma ends_with (m : N) (d : database) (d' : database) : set_stage_progress d kHashStateKey m = Done d' -> d' = put d kSyncStageProgress kHashStateKey (be_fixed 8 m).
Proof. unfold set_stage_progress, set_stage_data. rewrite known_hashstate. cbn [negb]. intros E. symmetry. apply (f_equal (fun x => match x with Done y => y | _ => d end)) in E. exact E. Qed.
Section First.
  Context (keccak : bytes -> bytes) (Hk : hash_length keccak) (pick : list (entry * nat) -> nat) (Pk : least_first pick).
  Context (d : database) (W : wf_db d) (Sh : shapes d) (Cs : collectable (d kPlainState)) (Cc : collectable (d kPlainContractCode)).
  Let accounts := map (hash_account keccak) (filter of_account (d kPlainState)).
  Let slots := map (hash_slot keccak) (filter (fun e => negb (of_account e)) (d kPlainState)).
  Let codes := map (hash_code keccak) (d kPlainContractCode).
  Lemma state_keys k v : In (k, v) (d kPlainState) -> length k = 20%nat \/ length k = 28%nat.
  Proof using Sh. intros I. destruct (sh_state d Sh k v I) as [X|(X & _)]; auto. Qed.
  Lemma stage_first : get_stage_progress d kHashStateKey = Done 0 -> stage_hashstate keccak pick d =
    (do a := load_append pick (d kHashedAccounts) accounts in
     do s := load_append pick (d kHashedStorage) slots in
     do c := load_append pick (d kContractCode) codes in
     do n := get_stage_progress d kExecutionKey in
     set_stage_progress (set_table (set_table (set_table d kHashedAccounts a) kHashedStorage s) kContractCode c) kHashStateKey n).
  Proof using Hk Sh.
    intros E. unfold stage_hashstate. rewrite E. cbn [obind]. change (negb (0 =? 0)) with false. cbn iota. unfold promote_clean_state. rewrite (clean_entries_eq keccak Hk (d kPlainState) state_keys). cbn [obind]. fold accounts slots.
    destruct (load_append pick (d kHashedAccounts) accounts) as [a| |]; cbn [obind]; [|reflexivity|reflexivity]. rewrite set_table_other by discriminate. destruct (load_append pick (d kHashedStorage) slots) as [s| |]; cbn [obind]; [|reflexivity|reflexivity].
    unfold promote_clean_code. rewrite !set_table_other by discriminate. rewrite (clean_codes_eq keccak (d kPlainContractCode) (sh_codes d Sh)). cbn [obind]. fold codes. destruct (load_append pick (d kContractCode) codes) as [c| |]; cbn [obind]; [|reflexivity|reflexivity].
    assert (G : get_stage_progress (set_table (set_table (set_table d kHashedAccounts a) kHashedStorage s) kContractCode c) kExecutionKey = get_stage_progress d kExecutionKey) by (apply get_other; now rewrite !set_table_other by discriminate).
    now rewrite G.
  Qed.
  Lemma accounts_ready : ready accounts. Proof using Hk Cs. now apply ready_accounts. Qed.
  Lemma slots_ready : ready slots. Proof using Hk Cs Sh. apply ready_slots; [exact Hk|exact Cs|exact state_keys]. Qed.
  Lemma codes_ready : ready codes. Proof using Hk Cc Sh. apply ready_codes; [exact Hk|exact Cc|exact (sh_codes d Sh)]. Qed.
  Lemma accounts_in k v : In (k, v) accounts <-> exists a, length a = 20%nat /\ In (a, v) (d kPlainState) /\ k = keccak a.
  Proof using Type.
    unfold accounts. rewrite in_map_iff. split.
    - intros ([a w] & E & I). apply filter_In in I as (I & L). apply Nat.eqb_eq in L. apply pair_equal_spec in E as (E1 & E2). cbn [fst snd] in *. subst. now exists a.
    - intros (a & L & I & ->). exists (a, v). split; [reflexivity|]. apply filter_In. split; [exact I|]. now apply Nat.eqb_eq.
  Qed.
  Lemma codes_in k v : In (k, v) codes <-> exists a i, length a = 20%nat /\ length i = 8%nat /\ In (a ++ i, v) (d kPlainContractCode) /\ k = keccak a ++ i.
  Proof using Sh.
    unfold codes. rewrite in_map_iff. split.
    - intros ([x w] & E & I). apply pair_equal_spec in E as (E1 & E2). cbn [fst snd] in *. subst. pose proof (sh_codes d Sh x v I) as L. exists (firstn 20 x), (skipn 20 x). rewrite firstn_length, skipn_length, firstn_skipn. split; [lia|]. split; [lia|]. split; [exact I|]. unfold code_key. f_equal. apply firstn_all2. rewrite skipn_length. lia.
    - intros (a & i & La & Li & I & ->). exists (a ++ i, v). split; [|exact I]. unfold hash_code, code_key. cbn [fst snd]. destruct (parts_at a i 20 La) as (-> & ->). now rewrite firstn_all2 by lia.
  Qed.
  Lemma slots_in k v : In (k, v) slots -> length k = 72%nat.
  Proof using Hk Sh.
    unfold slots. rewrite in_map_iff. intros ([x w] & E & I). apply filter_In in I as (I & L). apply pair_equal_spec in E as (E1 & E2). cbn [fst snd] in *. subst. apply slot_key_length; [exact Hk|]. unfold of_account in L. apply negb_true_iff, Nat.eqb_neq in L. cbn [fst] in L. destruct (state_keys x v I); [contradiction|assumption].
  Qed.
  (** What a first run that returns has done. *)
  Lemma first_run n d' : n < 2 ^ 64 -> get_stage_progress d kExecutionKey = Done n -> d kHashedAccounts = [] -> d kHashedStorage = [] -> d kContractCode = [] -> get_stage_progress d kHashStateKey = Done 0 -> stage_hashstate keccak pick d = Done d' ->
    accounts_hashed keccak d d' /\ codes_hashed keccak d d' /\ get_stage_progress d' kHashStateKey = Done n /\ wf_db d'
    /\ (forall k v, In (k, v) (d' kHashedStorage) -> length k = 72%nat) /\ (forall t, t <> kHashedAccounts -> t <> kHashedStorage -> t <> kContractCode -> t <> kSyncStageProgress -> d' t = d t).
  Proof using All.
    intros Hn En Ea Es Ec P E. rewrite (stage_first P), Ea, Es, Ec in E. destruct accounts_ready as (A1 & A2 & A3), slots_ready as (S1 & S2 & S3), codes_ready as (C1 & C2 & C3).
    destruct (load_append pick [] accounts) as [a| |] eqn:La; cbn [obind] in E; try discriminate. destruct (load_append pick [] slots) as [s| |] eqn:Ls; cbn [obind] in E; try discriminate. destruct (load_append pick [] codes) as [c| |] eqn:Lc; cbn [obind] in E; try discriminate.
    rewrite En in E. cbn [obind] in E. apply ends_with in E.
    destruct (load_append_done pick Pk [] accounts a A1 A2 A3 La) as (la & -> & Pa & Oa). destruct (load_append_done pick Pk [] slots s S1 S2 S3 Ls) as (ls & -> & Ps & Os). destruct (load_append_done pick Pk [] codes c C1 C2 C3 Lc) as (lc & -> & Pc & Oc). cbn [app] in *.
    assert (Wd : wf_db (set_table (set_table (set_table d kHashedAccounts la) kHashedStorage ls) kContractCode lc)).
    { apply set_table_wf; [apply set_table_wf; [apply set_table_wf; [exact W|]|]|]; cbn [multi]; [apply Oa; constructor|apply ordered_dup, Os; constructor|apply Oc; constructor]. }
    assert (Wd' : wf_db d') by (rewrite E; now apply put_wf).
    assert (Ta : d' kHashedAccounts = la) by (rewrite E, put_other by discriminate; now rewrite !set_table_other, set_table_same by discriminate).
    assert (Ts : d' kHashedStorage = ls) by (rewrite E, put_other by discriminate; now rewrite !set_table_other, set_table_same by discriminate).
    assert (Tc : d' kContractCode = lc) by (rewrite E, put_other by discriminate; now rewrite set_table_same).
    split; [|split; [|split; [|split; [exact Wd'|split]]]].
    - intros k v. rewrite Ta, <- accounts_in. split; intros I; [exact (Permutation_in _ Pa I)|exact (Permutation_in _ (Permutation_sym Pa) I)].
    - intros k v. rewrite Tc, <- codes_in. split; intros I; [exact (Permutation_in _ Pc I)|exact (Permutation_in _ (Permutation_sym Pc) I)].
    - rewrite E. unfold get_stage_progress, get_stage_data. rewrite known_hashstate. cbn [negb]. rewrite lookup_put by (exact Wd || reflexivity). rewrite eqb_refl, be_fixed_length. cbn [Nat.eqb]. f_equal. now apply be_to_N_be_fixed_small.
    - intros k v. rewrite Ts. intros I. apply (slots_in k v). exact (Permutation_in _ Ps I).
    - intros t N1 N2 N3 N4. rewrite E, put_other by exact N4. now rewrite !set_table_other by assumption.
  Qed.
  (** It returns when the keys made for slots differ. *)
  Lemma first_completes n : get_stage_progress d kExecutionKey = Done n -> d kHashedAccounts = [] -> d kHashedStorage = [] -> d kContractCode = [] -> get_stage_progress d kHashStateKey = Done 0 ->
    distinct_hashes keccak (fun a => length a = 20%nat /\ ((exists v, In (a, v) (d kPlainState)) \/ exists i v, In (a ++ i, v) (d kPlainContractCode))) ->
    (forall a v w, length a = 20%nat -> In (a, v) (d kPlainState) -> In (a, w) (d kPlainState) -> v = w) ->
    (forall k v k' v', length k = 28%nat -> length k' = 28%nat -> In (k, v) (d kPlainState) -> In (k', v') (d kPlainState) -> skipn 20 k = skipn 20 k' -> firstn 20 (keccak (firstn 20 k)) = firstn 20 (keccak (firstn 20 k')) -> k = k' /\ v = v') ->
    exists d', stage_hashstate keccak pick d = Done d'.
  Proof using All.
    intros En Ea Es Ec P Hd H1 Hs. rewrite (stage_first P), Ea, Es, Ec, En. destruct accounts_ready as (A1 & A2 & A3), slots_ready as (S1 & S2 & S3), codes_ready as (C1 & C2 & C3).
    assert (Na : NoDup (map fst accounts)).
    { unfold accounts. rewrite map_map. cbn [fst]. apply (nodup_map_filter _ _ of_account (wf_nodup d W)). intros [x v] [y w] Ix Iy Lx Ly E. unfold of_account, hash_account in *. cbn [fst snd] in *. apply Nat.eqb_eq in Lx, Ly. assert (x = y) by (apply Hd; [split; [exact Lx|left; now exists v]|split; [exact Ly|left; now exists w]|exact E]). subst y. f_equal. exact (H1 x v w Lx Ix Iy). }
    assert (Ns : NoDup (map fst slots)).
    { unfold slots. rewrite map_map. cbn [fst]. apply (nodup_map_filter _ _ (fun e => negb (of_account e)) (wf_nodup d W)). intros [x v] [y w] Ix Iy Lx Ly E. unfold of_account in *. cbn [fst snd hash_slot] in *. apply negb_true_iff, Nat.eqb_neq in Lx, Ly.
      destruct (state_keys x v Ix) as [X|X]; [contradiction|]. destruct (state_keys y w Iy) as [Y|Y]; [contradiction|]. unfold slot_key in E. apply app_parts in E as (E1 & E); [|rewrite !firstn_length, !Hk; reflexivity]. apply app_parts in E as (E2 & _); [|rewrite !firstn_length, !skipn_length, X, Y; reflexivity].
      rewrite !firstn_all2 in E2 by (rewrite skipn_length; lia). destruct (Hs x v y w X Y Ix Iy E2 E1) as (-> & ->). reflexivity. }
    assert (Nc : NoDup (map fst codes)).
    { unfold codes. rewrite map_map. cbn [fst]. rewrite <- (filter_all (d kPlainContractCode)). apply (nodup_map_filter _ _ (fun _ => true)); [apply sorted_nodup; exact (wf_single d kPlainContractCode W eq_refl)|]. intros [x v] [y w] Ix Iy _ _ E. cbn [fst snd hash_code] in *. pose proof (sh_codes d Sh _ _ Ix) as X. pose proof (sh_codes d Sh _ _ Iy) as Y.
      unfold code_key in E. apply app_parts in E as (E1 & E2); [|now rewrite !Hk]. rewrite !firstn_all2 in E2 by (rewrite skipn_length; lia).
      assert (F : firstn 20 x = firstn 20 y).
      { apply Hd; [| |exact E1]; (split; [rewrite firstn_length; lia|right]); [exists (skipn 20 x), v|exists (skipn 20 y), w]; now rewrite firstn_skipn. }
      assert (x = y) by (rewrite <- (firstn_skipn 20 x), <- (firstn_skipn 20 y), F, E2; reflexivity). subst y. f_equal. exact (ordered_fun _ _ _ _ (wf_single d kPlainContractCode W eq_refl) Ix Iy). }
    destruct (load_append_fresh pick Pk accounts A1 A2 A3 Na) as (la & -> & _). destruct (load_append_fresh pick Pk slots S1 S2 S3 Ns) as (ls & -> & _). destruct (load_append_fresh pick Pk codes C1 C2 C3 Nc) as (lc & -> & _). cbn [obind].
    unfold set_stage_progress, set_stage_data. rewrite known_hashstate. cbn [negb]. eauto.
  Qed.
  (** Two slots of one contract. *)
  Lemma two_slots k v w : get_stage_progress d kHashStateKey = Done 0 -> length k = 28%nat -> In (k, v) (d kPlainState) -> In (k, w) (d kPlainState) -> v <> w -> stage_hashstate keccak pick d = Throws.
  Proof using All.
    intros P L I1 I2 N. rewrite (stage_first P). destruct accounts_ready as (A1 & A2 & A3), slots_ready as (S1 & S2 & S3).
    destruct (load_append_cases pick Pk (d kHashedAccounts) accounts A1 A2 A3) as [(a & -> )| -> ]; [|reflexivity]. cbn [obind]. rewrite (load_append_double pick Pk (d kHashedStorage) slots S1 S2 S3); [reflexivity|]. intros Nd.
    assert (X : forall x, In (k, x) (d kPlainState) -> In (k, x) (filter (fun e => negb (of_account e)) (d kPlainState))).
    { intros x I. apply filter_In. split; [exact I|]. unfold of_account. cbn [fst]. now rewrite L. }
    unfold slots in Nd. rewrite map_map in Nd. apply X in I1, I2. apply N. assert (E : (k, v) = (k, w)) by (exact (nodup_map_inj _ _ (k, v) (k, w) Nd I1 I2 eq_refl)). now apply pair_equal_spec in E.
  Qed.
  (** The collected accounts cannot be appended to a table that has a key as large as one of theirs. *)
  Lemma not_appended k v a x : get_stage_progress d kHashStateKey = Done 0 -> length a = 20%nat -> In (a, x) (d kPlainState) -> In (k, v) (d kHashedAccounts) -> lex_lt k (keccak a) = false -> stage_hashstate keccak pick d = Throws.
  Proof using All.
    intros P L I Ik Lt. rewrite (stage_first P). destruct accounts_ready as (A1 & A2 & A3). destruct (load_append pick (d kHashedAccounts) accounts) as [t| |] eqn:E.
    - exfalso. destruct (load_append_done pick Pk _ _ _ A1 A2 A3 E) as (l & -> & Pl & O). pose proof (O (wf_single d kHashedAccounts W eq_refl)) as O'. apply sorted_app in O' as (_ & _ & F). specialize (F (k, v) (keccak a, x) Ik).
      cbn [fst] in F. rewrite F in Lt; [discriminate|]. apply (Permutation_in _ (Permutation_sym Pl)). apply accounts_in. now exists a.
    - reflexivity.
    - destruct (load_append_cases pick Pk (d kHashedAccounts) accounts A1 A2 A3) as [(a' & X)|X]; congruence.
  Qed.
End First.
