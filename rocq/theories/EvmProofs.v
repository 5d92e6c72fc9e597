(** Message calls: journal discipline, balances, gas and termination. *)
From stdpp Require Import gmap.
From Coq Require Import ZArith.
From Verif Require Import Base BaseFacts RlpModel TypesModel ChainModel StateModel JournalProofs EvmModel EvmSpec.

(** ** Sums of balances *)
Lemma sum_ext f g l : (forall a, In a l -> f a = g a) -> sum f l = sum g l.
Proof. induction l as [|a t IH]; intros H; [reflexivity|]. cbn. rewrite (H a) by now left. rewrite IH; [reflexivity|]. intros b Hb. apply H. now right. Qed.
Lemma total_ext f g t : (forall a, f a = g a) -> total f t -> total g t.
Proof. intros H (l & A & B & C). exists l. split; [exact A|]. split; [intros a Ha; rewrite <- H; now apply B|]. rewrite <- C. apply sum_ext. intros; now rewrite H. Qed.
Lemma sum_update f a v l : List.NoDup l -> In a l -> sum (fun x => if x =? a then v else f x) l + f a = sum f l + v.
Proof.
  induction l as [|b t IH]; [intros _ []|]. intros Hn Hi. apply List.NoDup_cons_iff in Hn as (Nb & Hn). cbn [sum].
  destruct (N.eqb_spec b a) as [->|E].
  - rewrite (sum_ext _ f t); [lia|]. intros x Hx. destruct (N.eqb_spec x a) as [->|]; [contradiction|reflexivity].
  - destruct Hi as [->|Hi]; [congruence|]. specialize (IH Hn Hi). lia.
Qed.
Lemma total_has f t a : total f t -> exists l, List.NoDup l /\ (forall x, ~ In x l -> f x = 0) /\ sum f l = t /\ In a l.
Proof.
  intros (l & A & B & C). destruct (in_dec N.eq_dec a l) as [I|I]; [exists l; auto|]. exists (a :: l).
  split; [now apply List.NoDup_cons|]. split; [intros x Hx; apply B; intros Y; apply Hx; now right|]. split; [|now left]. cbn. rewrite (B a I). exact C.
Qed.
Lemma sum_in f l a : In a l -> f a <= sum f l.
Proof. induction l as [|b t IH]; [intros []|]. cbn. intros [->|H]; [lia|]. specialize (IH H). lia. Qed.
Lemma total_le f t a : total f t -> f a <= t.
Proof. intros H. destruct (total_has f t a H) as (l & _ & _ & <- & I). now apply sum_in. Qed.
Lemma total_update f t a v : total f t -> total (fun x => if x =? a then v else f x) (t - f a + v).
Proof.
  intros H. pose proof (total_le f t a H). destruct (total_has f t a H) as (l & A & B & C & I). exists l. split; [exact A|]. split.
  - intros x Hx. destruct (N.eqb_spec x a) as [->|]; [contradiction|now apply B].
  - pose proof (sum_update f a v l A I). lia.
Qed.
Lemma total_det f t t' : total f t -> total f t' -> t = t'.
Proof.
  intros (l & A & B & C) (l' & A' & B' & C'). subst t t'.
  assert (G : forall l f, List.NoDup l -> forall l', List.NoDup l' -> (forall a, ~ In a l -> f a = 0) -> (forall a, ~ In a l' -> f a = 0) -> sum f l = sum f l').
  { clear. induction l as [|a t IH]; intros f A l' A' B B'.
    - clear A A' B'. induction l' as [|b u IH]; [reflexivity|]. cbn. rewrite (B b) by auto. exact IH.
    - apply List.NoDup_cons_iff in A as (Na & A). set (g := fun x => if x =? a then 0 else f x).
      assert (Et : sum f t = sum g t). { apply sum_ext. intros x Hx. unfold g. destruct (N.eqb_spec x a) as [->|]; [contradiction|reflexivity]. }
      cbn. rewrite Et. rewrite (IH g A l' A').
      + destruct (in_dec N.eq_dec a l') as [I|I].
        * pose proof (sum_update f a 0 l' A' I). unfold g. lia.
        * rewrite (B' a I). cbn. apply sum_ext. intros x Hx. unfold g. destruct (N.eqb_spec x a) as [->|]; [contradiction|reflexivity].
      + intros x Hx. unfold g. destruct (N.eqb_spec x a) as [->|E]; [reflexivity|]. apply B. intros [->|Y]; [congruence|contradiction].
      + intros x Hx. unfold g. destruct (N.eqb_spec x a) as [->|E]; [reflexivity|]. now apply B'. }
  now apply G.
Qed.
Lemma total_moved f t a b v : total f t -> v <= f a -> total (moved f a b v) t.
Proof.
  intros H Hv. unfold moved. destruct (N.eqb_spec a b) as [->|E]; [exact H|].
  pose proof (total_le f t a H). pose proof (total_update f t a (f a - v) H) as H1. pose proof (total_update _ _ b (f b + v) H1) as H2. cbv beta in H2.
  destruct (N.eqb_spec b a) as [->|_]; [congruence|].
  assert (Hb : f b <= t - f a + (f a - v)). { pose proof (total_le _ _ b H1) as Y. cbv beta in Y. destruct (N.eqb_spec b a) as [->|]; [congruence|exact Y]. }
  replace (t - f a + (f a - v) - f b + (f b + v)) with t in H2 by lia. eapply total_ext; [|exact H2]. intros x. cbv beta.
  destruct (N.eqb_spec x b) as [->|]; [destruct (N.eqb_spec b a) as [->|]; [congruence|reflexivity]|]. destruct (N.eqb_spec x a) as [->|]; reflexivity.
Qed.
(** In a world whose balances add up to less than 2^256 a transfer does not wrap. *)
Lemma moved_fits f t a b v : total f t -> v <= f a -> a <> b -> f b + v <= t.
Proof.
  intros H Hv E. pose proof (total_le _ _ b (total_moved f t a b v H Hv)) as Y. unfold moved in Y. destruct (N.eqb_spec a b); [congruence|].
  destruct (N.eqb_spec b a); [congruence|]. rewrite N.eqb_refl in Y. exact Y.
Qed.

Section Proofs.
  Variable keccak : bytes -> bytes.
  Variable db : db_reader.
  Variable rev : N.
  Variable pre_gas : N -> bytes -> N -> N.
  Variable pre_run : N -> bytes -> option bytes.
  Variable block_hash : N -> bytes.
  Variable interp : message -> bytes -> prog.
  Variable strict : bool.
  Hypothesis Hdb : forall a k, read_storage db a 0 k = 0.
  Hypothesis Hlaw : lawful strict interp.

  Notation ev := (JournalProofs.ev db).
  Notation live := (JournalProofs.live db).
  Notation bal := (JournalProofs.bal db).
  Notation same := (JournalProofs.same db).
  Notation quiet := (JournalProofs.quiet db).
  Notation obj := (JournalProofs.obj db).

  Definition flow (s s' : ibs) : Prop := forall t, t < 2 ^ 256 -> total (bal s) t -> exists t', total (bal s') t' /\ t' <= t /\ (strict = true -> t' = t).
  Lemma flow_eq s s' : (forall a, bal s' a = bal s a) -> flow s s'.
  Proof. intros H t Ht T. exists t. split; [|split; [lia|reflexivity]]. eapply total_ext; [|exact T]. intros; now rewrite H. Qed.
  Lemma flow_trans a b c : flow a b -> flow b c -> flow a c.
  Proof. intros A B t Ht T. destruct (A t Ht T) as (t1 & T1 & L1 & E1). destruct (B t1 ltac:(lia) T1) as (t2 & T2 & L2 & E2). exists t2. split; [exact T2|]. split; [lia|]. intros E. rewrite E2, E1; auto. Qed.
  Lemma bal_obj s s' : (forall x, obj s' x = obj s x) -> forall a, bal s' a = bal s a.
  Proof. intros H a. unfold JournalProofs.bal. now rewrite H. Qed.
  Lemma bal_same s s' : same s s' -> forall a, bal s' a = bal s a.
  Proof. intros H. apply bal_obj, H. Qed.

  (** [step s s']: journal kept, balances accounted for. *)
  Definition step (s s' : ibs) : Prop := ev s s' /\ flow s s'.
  Lemma step_refl s : step s s.
  Proof. split; [apply ev_refl|now apply flow_eq]. Qed.
  Lemma step_trans a b c : step a b -> step b c -> step a c.
  Proof. intros (A & B) (C & D). split; [eapply ev_trans; eassumption|eapply flow_trans; eassumption]. Qed.
  Lemma step_quiet s s' : quiet s s' -> step s s'.
  Proof. intros (A & B & _). split; [exact A|]. apply flow_eq. now apply bal_same. Qed.
  Lemma step_obj s s' : ev s s' /\ (forall x, obj s' x = obj s x) -> step s s'.
  Proof. intros (A & B). split; [exact A|]. now apply flow_eq, bal_obj. Qed.
  Lemma step_live s s' a : step s s' -> live s a -> live s' a.
  Proof. intros (A & _). apply A. Qed.

  Lemma N256_pos : 2 ^ 256 <> 0. Proof. discriminate. Qed.
  Lemma sub_wrap b v : v <= b -> b < 2 ^ 256 -> (b + 2 ^ 256 - v) mod 2 ^ 256 = b - v.
  Proof. intros A B. replace (b + 2 ^ 256 - v) with (b - v + 1 * 2 ^ 256) by lia. rewrite N.mod_add by exact N256_pos. apply N.mod_small. lia. Qed.

  Definition transfer (s : ibs) (a b v : N) : ibs := add_to_balance db (subtract_from_balance db s a v) b v.
  Lemma transfer_ok s a b v : ev s (transfer s a b v) /\ (forall x, nonce db (transfer s a b v) x = nonce db s x)
    /\ (forall x, codehash db (transfer s a b v) x = codehash db s x) /\ refund (transfer s a b v) = refund s /\ live (transfer s a b v) b
    /\ forall t, t < 2 ^ 256 -> total (bal s) t -> v <= bal s a -> forall x, bal (transfer s a b v) x = moved (bal s) a b v x.
  Proof.
    unfold transfer, add_to_balance, subtract_from_balance.
    destruct (balance_ev db Hdb s a (fun c => (a_balance c + 2 ^ 256 - v) mod 2 ^ 256)) as (X & B & Nn & C & R & _). cbv zeta in *.
    set (s1 := touch (update_current db s a _) a) in *.
    destruct (balance_ev db Hdb s1 b (fun c => (a_balance c + v) mod 2 ^ 256)) as (X' & B' & Nn' & C' & R' & L'). cbv zeta in *.
    set (s2 := touch (update_current db s1 b _) b) in *.
    split; [eapply ev_trans; eassumption|]. split; [intros x; now rewrite Nn', Nn|]. split; [intros x; now rewrite C', C|]. split; [congruence|]. split; [exact L'|].
    intros t Ht T Hv x. rewrite B', (default_balance db s1 b), !B, !(default_balance db s a).
    pose proof (total_le _ _ a T) as La. rewrite (sub_wrap (bal s a) v Hv) by lia. unfold moved.
    destruct (N.eqb_spec a b) as [<-|E].
    - destruct (decide (a = a)); [|congruence]. destruct (decide (x = a)) as [->|]; [|reflexivity]. rewrite N.mod_small; lia.
    - pose proof (moved_fits (bal s) t a b v T Hv E). destruct (decide (b = a)); [congruence|]. destruct (decide (x = b)) as [->|].
      + destruct (N.eqb_spec b a); [congruence|]. rewrite N.eqb_refl. rewrite N.mod_small; lia.
      + destruct (N.eqb_spec x b); [congruence|]. destruct (decide (x = a)) as [->|]; [now rewrite N.eqb_refl|]. destruct (N.eqb_spec x a); [congruence|reflexivity].
  Qed.
  Lemma transfer_step s a b v : v <= bal s a -> step s (transfer s a b v).
  Proof.
    intros Hv. destruct (transfer_ok s a b v) as (X & _ & _ & _ & _ & B). split; [exact X|]. intros t Ht T. exists t. split; [|split; [lia|reflexivity]].
    eapply total_ext; [|apply total_moved with (a := a) (b := b) (v := v); [exact T|exact Hv]]. intros x. symmetry. eapply B; eassumption.
  Qed.

  Lemma set_balance_ok s a v : ev s (set_balance db s a v) /\ forall x, bal (set_balance db s a v) x = if decide (x = a) then v else bal s x.
  Proof. unfold set_balance. destruct (balance_ev db Hdb s a (fun _ => v)) as (X & B & _). cbv zeta in *. split; [exact X|]. intros x. exact (B x). Qed.

  Lemma selfdestruct_step s a b : (strict = true -> b <> a) -> step s (host_selfdestruct db s a b).
  Proof.
    intros Hs. unfold host_selfdestruct. destruct (suicide_ev db s a) as (X1 & O1). set (s1 := record_suicide s a) in *.
    destruct (get_balance db s1 a) as [v s2] eqn:Eb. destruct (get_balance_quiet _ _ _ _ _ Eb) as ((X2 & Q2 & _) & ->).
    unfold add_to_balance. destruct (balance_ev db Hdb s2 b (fun c => (a_balance c + bal s1 a) mod 2 ^ 256)) as (X3 & B3 & _). cbv zeta in *. set (s3 := touch (update_current db s2 b _) b) in *.
    destruct (set_balance_ok s3 a 0) as (X4 & B4).
    split; [eapply ev_trans; [exact X1|]; eapply ev_trans; [exact X2|]; eapply ev_trans; [exact X3|exact X4]|].
    assert (E12 : forall x, bal s2 x = bal s x) by (intros x; rewrite (bal_same _ _ Q2); now apply bal_obj).
    rewrite default_balance in B3. rewrite E12, (bal_obj _ _ O1) in B3.
    intros t Ht T. pose proof (total_le _ _ a T) as La. pose proof (total_update _ _ a 0 T) as T0. rewrite N.add_0_r in T0.
    destruct (N.eq_dec b a) as [->|E].
    - exists (t - bal s a). split; [|split; [lia|intros Y; now specialize (Hs Y)]]. eapply total_ext; [|exact T0]. intros x. cbv beta. rewrite B4. destruct (decide (x = a)) as [->|N1].
      + now rewrite N.eqb_refl.
      + destruct (N.eqb_spec x a); [congruence|]. rewrite B3. destruct (decide (x = a)); [congruence|]. now rewrite E12.
    - exists t. split; [|split; [lia|reflexivity]].
      pose proof (total_update _ _ b (bal s b + bal s a) T0) as T1. cbv beta in T1. destruct (N.eqb_spec b a); [congruence|].
      assert (Lb : bal s b <= t - bal s a). { pose proof (total_le _ _ b T0) as Y. cbv beta in Y. destruct (N.eqb_spec b a); [congruence|exact Y]. }
      replace (t - bal s a - bal s b + (bal s b + bal s a)) with t in T1 by lia. eapply total_ext; [|exact T1]. intros x. cbv beta. rewrite B4.
      destruct (decide (x = a)) as [->|N1].
      + destruct (N.eqb_spec a b); [congruence|]. now rewrite N.eqb_refl.
      + rewrite B3. destruct (decide (x = b)) as [->|N2].
        * rewrite N.eqb_refl. symmetry. apply N.mod_small. lia.
        * destruct (N.eqb_spec x b); [congruence|]. destruct (N.eqb_spec x a); [congruence|]. now rewrite E12.
  Qed.

  (** The host functions *)
  Lemma account_exists_step s a b s' : host_account_exists db rev s a = (b, s') -> step s s'.
  Proof.
    unfold host_account_exists. destruct (_ <=? rev).
    - destruct (is_dead db s a) as [d s1] eqn:E. intros [= _ <-]. eapply step_quiet, is_dead_quiet; eassumption.
    - intros E. eapply step_quiet, exists_quiet; eassumption.
  Qed.
  Lemma access_account_step s a b s' : access_account s a = (b, s') -> step s s'.
  Proof. intros E. eapply step_obj, access_account_ev; eassumption. Qed.
  Lemma host_access_step s a b s' : host_access_account rev s a = (b, s') -> step s s'.
  Proof. unfold host_access_account. destruct (is_precompiled _ _); [intros [= _ <-]; apply step_refl|]. apply access_account_step. Qed.
  Lemma refund_step s n : step s (set_refund s n).
  Proof. eapply step_obj, refund_ev. Qed.
  Lemma set_storage_step s a k v t s' : live s a -> host_set_storage db rev s a k v = (t, s') -> step s s'.
  Proof.
    intros Hl. unfold host_set_storage, get_current_storage. destruct (get_storage db s a k false) as [c s1] eqn:E1. destruct (get_storage_quiet _ _ _ _ _ _ _ E1) as (Q1 & _).
    pose proof (step_quiet _ _ Q1) as S1. destruct (c =? v); [intros [= _ <-]; exact S1|].
    destruct (set_storage_ev db s1 a k v (step_live _ _ _ S1 Hl)) as (X2 & O2 & _). pose proof (step_trans _ _ _ S1 (step_obj _ _ (conj X2 O2))) as S2. set (s2 := set_storage db s1 a k v) in *.
    destruct (negb _).
    { destruct (c =? 0); [intros [= _ <-]; exact S2|]. destruct (v =? 0); intros [= _ <-]; [|exact S2]. eapply step_trans; [exact S2|apply refund_step]. }
    unfold get_original_storage. destruct (get_storage db s2 a k true) as [og s3] eqn:E3. destruct (get_storage_quiet _ _ _ _ _ _ _ E3) as (Q3 & _). pose proof (step_trans _ _ _ S2 (step_quiet _ _ Q3)) as S3.
    assert (R : forall x b n m, step s x -> step s (if b : bool then add_refund x n else x) /\ step s (if b : bool then subtract_refund x m else x)).
    { intros x b n m Sx. destruct b; [|split; exact Sx]. split; (eapply step_trans; [exact Sx|apply refund_step]). }
    destruct (og =? c).
    - destruct (og =? 0); intros [= _ <-]; [exact S3|]. now apply R.
    - intros [= _ <-].
      assert (S4 : step s (if negb (og =? 0) then let s := if c =? 0 then subtract_refund s3 (sstore_clears_refund rev) else s3 in if v =? 0 then add_refund s (sstore_clears_refund rev) else s else s3)).
      { destruct (negb _); [|exact S3]. cbv zeta. apply R; [exact 0|]. now apply R. }
      destruct (og =? v); [|exact S4]. destruct (og =? 0); (eapply step_trans; [exact S4|apply refund_step]).
  Qed.
  Lemma host_code_hash_step s a h s' : host_get_code_hash db s a = (h, s') -> step s s'.
  Proof.
    unfold host_get_code_hash. destruct (is_dead db s a) as [d s1] eqn:E. pose proof (step_quiet _ _ (is_dead_quiet _ _ _ _ _ E)) as S. destruct d; [intros [= _ <-]; exact S|].
    intros E2. eapply step_trans; [exact S|]. eapply step_quiet, get_code_hash_quiet; eassumption.
  Qed.
  Lemma copy_code_step s a o n c s' : host_copy_code db s a o n = (c, s') -> step s s'.
  Proof. unfold host_copy_code. destruct (get_code db s a) as [x s1] eqn:E. intros [= _ <-]. eapply step_quiet, get_code_quiet; eassumption. Qed.

  (** ** Programs *)
  Definition post (gas : Z) (s : ibs) (r : result) (s' : ibs) : Prop := step s s' /\ (0 <= r_gas r <= gas)%Z.
  Definition fine (bad : Prop) (gas : Z) (s : ibs) (o : outcome) : Prop :=
    match o with Returns r s' => post gas s r s' | NoFuel => bad | Undefined => False end.
  Definition may_call (self depth : N) (m : message) : Prop :=
    (m_kind m <> KDelegatecall -> m_sender m = self) /\ m_depth m = depth + 1 /\ m_depth m <= 1024 /\ (0 <= m_gas m)%Z.

  Lemma run_ok bad callf self gas depth :
    (forall m s, may_call self depth m -> live s self -> fine bad (m_gas m) s (callf m s)) ->
    forall p s, contract strict self gas depth p -> live s self -> fine bad gas s (run db rev block_hash callf p s).
  Proof.
    intros Hc.
    assert (W : forall s s1 o, step s s1 -> fine bad gas s1 o -> fine bad gas s o).
    { intros s s1 o S. destruct o as [r s2| |]; cbn; auto. intros (A & B). split; [eapply step_trans; eassumption|exact B]. }
    induction p as [r|a k IH|a key k IH|a key v k IH|a k IH|a k IH|a k IH|a o n k IH|a b k IH|m k IH|n k IH|l k IH|a k IH|a key k IH]; intros s; cbn [contract run]; intros Hp Hl.
    - split; [apply step_refl|exact Hp].
    - destruct (host_account_exists db rev s a) as [b s1] eqn:E. apply account_exists_step in E. eapply W; [exact E|]. apply IH; [apply Hp|eapply step_live; eassumption].
    - unfold get_current_storage. destruct (get_storage db s a key false) as [v s1] eqn:E. apply get_storage_quiet in E as (E & _). apply step_quiet in E. eapply W; [exact E|]. apply IH; [apply Hp|eapply step_live; eassumption].
    - destruct Hp as (-> & Hp). destruct (host_set_storage db rev s self key v) as [t s1] eqn:E. apply set_storage_step in E; [|exact Hl]. eapply W; [exact E|]. apply IH; [apply Hp|eapply step_live; eassumption].
    - destruct (get_balance db s a) as [v s1] eqn:E. apply get_balance_quiet in E as (E & _). apply step_quiet in E. eapply W; [exact E|]. apply IH; [apply Hp|eapply step_live; eassumption].
    - destruct (get_code db s a) as [v s1] eqn:E. apply get_code_quiet in E as (E & _). apply step_quiet in E. eapply W; [exact E|]. apply IH; [apply Hp|eapply step_live; eassumption].
    - destruct (host_get_code_hash db s a) as [v s1] eqn:E. apply host_code_hash_step in E. eapply W; [exact E|]. apply IH; [apply Hp|eapply step_live; eassumption].
    - destruct (host_copy_code db s a o n) as [v s1] eqn:E. apply copy_code_step in E. eapply W; [exact E|]. apply IH; [apply Hp|eapply step_live; eassumption].
    - destruct Hp as (-> & Hs & Hp). pose proof (selfdestruct_step s self b Hs) as E. eapply W; [exact E|]. apply IH; [apply Hp|eapply step_live; eassumption].
    - destruct Hp as (H1 & H2 & H3 & H4 & Hp). specialize (Hc m s ltac:(repeat split; assumption) Hl). destruct (callf m s) as [r s1| |]; cbn in Hc; auto.
      destruct Hc as (E & Hg). eapply W; [exact E|]. apply IH; [now apply Hp|eapply step_live; eassumption].
    - apply IH; [apply Hp|exact Hl].
    - pose proof (step_obj _ _ (add_log_ev db s l)) as E. eapply W; [exact E|]. apply IH; [apply Hp|eapply step_live; eassumption].
    - destruct (host_access_account rev s a) as [b s1] eqn:E. apply host_access_step in E. eapply W; [exact E|]. apply IH; [apply Hp|eapply step_live; eassumption].
    - destruct (access_storage s a key) as [b s1] eqn:E. apply (access_storage_ev db) in E. apply step_obj in E. eapply W; [exact E|]. apply IH; [apply Hp|eapply step_live; eassumption].
  Qed.

  (** ** Frames *)
  Definition back (s s' : ibs) : Prop := same s s' /\ logs s' = logs s /\ refund s' = refund s.
  Lemma back_step s s' : quiet s s' -> back s s'.
  Proof. intros (_ & A & B & _ & C). split; [exact A|split; assumption]. Qed.
  Lemma back_trans a b c : back a b -> back b c -> back a c.
  Proof. intros (A & B & C) (D & E & F). split; [eapply same_trans; eassumption|split; congruence]. Qed.
  (** what a frame guarantees: [s0] is the state a failure leaves behind *)
  Definition frame (bad : Prop) (gas : Z) (s : ibs) (base : ibs -> Prop) (o : outcome) : Prop :=
    match o with
    | Returns r s' => post gas s r s' /\ (is_success (r_status r) = false -> base s')
    | NoFuel => bad
    | Undefined => False
    end.

  Lemma settle_ok bad gas s n0 r s' (base : ibs -> Prop) : step s n0 -> step n0 s' -> (0 <= r_gas r <= gas)%Z -> (forall x, back n0 x -> base x) ->
    frame bad gas s base (settle (take_snapshot n0) r s').
  Proof.
    intros S0 S1 Hg Hb. unfold settle. destruct (is_success (r_status r)) eqn:E.
    - split; [split; [eapply step_trans; eassumption|exact Hg]|congruence].
    - destruct (revert_ok db n0 s' (proj1 S1)) as (A & _ & B & C & _). cbv zeta in *.
      assert (G : step s (revert_to_snapshot s' (take_snapshot n0))).
      { eapply step_trans; [exact S0|]. split; [apply revert_ev; apply S1|]. now apply flow_eq, bal_same. }
      assert (K : base (revert_to_snapshot s' (take_snapshot n0))) by (apply Hb; split; [exact A|split; assumption]).
      destruct (is_revert (r_status r)); (split; [split; [exact G|cbn [r_gas]; lia]|intros _; exact K]).
  Qed.

  Definition stack_ok (stack : list N) (m : message) (s : ibs) : Prop :=
    match m_kind m with
    | KCallcode => live s (m_sender m)
    | KDelegatecall => match stack with a :: _ => live s a | [] => False end
    | _ => True
    end.

  Section Frame.
    Variable bad : Prop.
    Variable rec : list N -> message -> ibs -> outcome.
    Variable depth : N.
    Hypothesis Hrec : forall self stack m s, may_call self depth m -> live s self -> fine bad (m_gas m) s (rec (self :: stack) m s).

    Lemma execute_ok stack m code s : m_depth m = depth -> depth <= 1024 -> (0 <= m_gas m)%Z -> live s (m_destination m) ->
      fine bad (m_gas m) s (execute db rev block_hash interp rec stack m code s).
    Proof.
      intros Hd Hd' Hg Hl. unfold execute. apply run_ok with (self := m_destination m) (depth := depth).
      - intros m' s' Hm Hl'. now apply Hrec.
      - rewrite <- Hd. apply Hlaw; [exact Hg|lia].
      - exact Hl.
    Qed.

    Lemma call_ok stack m s : m_depth m = depth -> depth <= 1024 -> (0 <= m_gas m)%Z -> stack_ok stack m s ->
      m_kind m <> KCreate -> m_kind m <> KCreate2 ->
      frame bad (m_gas m) s (back s) (call db rev pre_gas pre_run block_hash interp rec stack m s).
    Proof.
      intros Hd Hd' Hg Hst N1 N2. unfold call.
      destruct (match m_kind m with KDelegatecall => (false, s) | _ => let '(b, s) := get_balance db s (m_sender m) in (b <? m_value m, s) end) as [poor s1] eqn:E1.
      assert (Q1 : quiet s s1 /\ (poor = false -> m_kind m <> KDelegatecall -> m_value m <= bal s1 (m_sender m))).
      { destruct (m_kind m); try congruence; try (injection E1 as <- <-; split; [apply quiet_refl|congruence]);
          (destruct (get_balance db s (m_sender m)) as [b s2] eqn:Eb; injection E1 as <- <-; destruct (get_balance_quiet _ _ _ _ _ Eb) as (Q & ->); split; [exact Q|]; intros Hp _; apply N.ltb_ge in Hp; destruct Q as (_ & Q & _); now rewrite (bal_same _ _ Q)). }
      destruct Q1 as (Q1 & Hbal). pose proof (step_quiet _ _ Q1) as S1.
      destruct poor; [split; [split; [exact S1|cbn; lia]|intros _; now apply back_step]|]. specialize (Hbal eq_refl).
      destruct (recipient_of stack m) as [rc|] eqn:Er.
      2: { unfold recipient_of in Er. unfold stack_ok in Hst. destruct (m_kind m); try discriminate. destruct stack; [contradiction|discriminate]. }
      set (pc := is_precompiled rev (m_destination m)).
      destruct (if _ && _ && negb pc then let '(e, s) := exists_ db s1 (m_destination m) in (negb e, s) else (false, s1)) as [skip s2] eqn:E2.
      assert (Q2 : quiet s1 s2). { destruct (_ && _ && negb pc); [|injection E2 as <- <-; apply quiet_refl]. destruct (exists_ db s1 (m_destination m)) as [e s3] eqn:Ee. injection E2 as <- <-. eapply exists_quiet; eassumption. }
      pose proof (quiet_trans _ _ _ _ Q1 Q2) as Q12. pose proof (step_quiet _ _ Q12) as S2.
      destruct skip; [split; [split; [exact S2|cbn; lia]|discriminate]|].
      set (s3 := match m_kind m with KCall => _ | _ => s2 end).
      assert (S3 : step s2 s3).
      { unfold s3. destruct (m_kind m); try apply step_refl. destruct (m_static m).
        - destruct (touch_ev db s2 rc) as (A & B & _). apply step_obj. split; assumption.
        - apply transfer_step. destruct Q2 as (_ & Q & _). rewrite (bal_same _ _ Q). apply Hbal. discriminate. }
      assert (Hbase : forall x, back s2 x -> back s x) by (intros x; apply back_trans; now apply back_step).
      destruct pc.
      { apply settle_ok; auto. unfold run_precompiled. destruct ((_ <? 0)%Z || _)%bool eqn:Eg; [cbn; lia|]. apply orb_false_iff in Eg as (G1 & G2). apply Z.ltb_ge in G1, G2.
        destruct (pre_run _ _); cbn [r_gas]; lia. }
      destruct (get_code db s3 (m_destination m)) as [code s4] eqn:Ec. destruct (get_code_quiet _ _ _ _ _ Ec) as (Q4 & Hcode). pose proof (step_trans _ _ _ S3 (step_quiet _ _ Q4)) as S4.
      destruct code as [|c0 code']; [split; [split; [eapply step_trans; [exact S2|exact S4]|cbn; lia]|discriminate]|].
      destruct (get_code_hash db s4 (m_destination m)) as [h s5] eqn:Eh. destruct (get_code_hash_quiet _ _ _ _ _ Eh) as (Q5 & _). pose proof (step_trans _ _ _ S4 (step_quiet _ _ Q5)) as S5.
      assert (Hl : live s5 rc).
      { unfold recipient_of in Er. unfold stack_ok in Hst. destruct (m_kind m) eqn:Ek; try congruence.
        - injection Er as <-. eapply step_live; [apply step_quiet; eapply quiet_trans; [exact Q4|exact Q5]|]. apply Hcode. discriminate.
        - destruct stack as [|a t]; [contradiction|]. injection Er as <-. eapply step_live; [eapply step_trans; [exact S2|exact S5]|exact Hst].
        - injection Er as <-. eapply step_live; [eapply step_trans; [exact S2|exact S5]|exact Hst]. }
      pose proof (execute_ok stack (with_destination m rc) (c0 :: code') s5 Hd Hd' Hg Hl) as He.
      destruct (execute _ _ _ _ _ _ _ _ _) as [r s6| |]; cbn in He; auto. destruct He as (S6 & Hr). apply settle_ok; auto. eapply step_trans; eassumption.
    Qed.

    Definition contract_address (m : message) (s : ibs) : N :=
      match m_kind m with KCreate2 => create2_address keccak (m_sender m) (m_salt m) (keccak (m_input m)) | _ => create_address keccak (m_sender m) (nonce db s (m_sender m)) end.
    (** What a creation does whether it fails or not. *)
    Definition create_base (m : message) (s : ibs) : ibs := snd (access_account (set_nonce db s (m_sender m) ((nonce db s (m_sender m) + 1) mod 2 ^ 64)) (contract_address m s)).
    Lemma deploy_ok c r s r' s' : deploy keccak db rev c r s = (r', s') -> (0 <= r_gas r)%Z -> step s s' /\ (0 <= r_gas r' <= r_gas r)%Z.
    Proof.
      unfold deploy. destruct (is_success _); [|intros [= <- <-] H; split; [apply step_refl|lia]].
      destruct (_ && _); [intros [= <- <-] H; split; [apply step_refl|cbn; lia]|].
      destruct (_ && _); [intros [= <- <-] H; split; [apply step_refl|cbn; lia]|].
      destruct ((0 <=? r_gas r)%Z && _) eqn:E.
      - intros [= <- <-] H. apply andb_true_iff in E as (E1 & E2). apply N.leb_le in E2. destruct (set_code_ev keccak db Hdb s c (r_output r)) as (A & B & _).
        split; [split; [exact A|now apply flow_eq]|]. cbn [r_gas]. lia.
      - destruct (_ <=? rev); intros [= <- <-] H; (split; [apply step_refl|cbn; lia]).
    Qed.
    Lemma set_nonce_step s a n : step s (set_nonce db s a n).
    Proof. destruct (set_nonce_ev db Hdb s a n) as (A & B & _). split; [exact A|now apply flow_eq]. Qed.

    (** The states on the way: [sb] after the nonce, [sn] where the snapshot is taken. *)
    Lemma create_ok stack m s : m_depth m = depth -> depth <= 1024 -> (0 <= m_gas m)%Z ->
      frame bad (m_gas m) s (fun s' => if bal s (m_sender m) <? m_value m then back s s' else back (create_base m s) s') (create keccak db rev block_hash interp rec stack m s).
    Proof.
      intros Hd Hd' Hg. unfold create.
      destruct (get_balance db s (m_sender m)) as [b s1] eqn:E1. destruct (get_balance_quiet _ _ _ _ _ E1) as (Q1 & ->). pose proof (step_quiet _ _ Q1) as S1.
      destruct (N.ltb_spec (bal s (m_sender m)) (m_value m)) as [Hpoor|Hrich]; [split; [split; [exact S1|cbn; lia]|intros _; now apply back_step]|].
      destruct (get_nonce db s1 (m_sender m)) as [n s2] eqn:E2. destruct (get_nonce_quiet _ _ _ _ _ E2) as (Q2 & ->). pose proof (quiet_trans _ _ _ _ Q1 Q2) as Q12.
      assert (En : nonce db s1 (m_sender m) = nonce db s (m_sender m)) by (unfold nonce; destruct Q1 as (_ & Q & _); now rewrite (same_obj _ _ _ Q)).
      rewrite En. fold (contract_address m s). set (c := contract_address m s).
      set (n1 := (nonce db s (m_sender m) + 1) mod 2 ^ 64). pose proof (set_nonce_step s2 (m_sender m) n1) as S3. set (s3 := set_nonce db s2 (m_sender m) n1) in *.
      destruct (access_account s3 c) as [w s4] eqn:E4. pose proof (access_account_step _ _ _ _ E4) as S4.
      (* the base state is the same up to caches *)
      assert (Hbase0 : back (create_base m s) s4).
      { unfold create_base. fold c n1. 
        destruct (update_current_ev db Hdb s (m_sender m) (fun a => with_nonce a n1)) as (_ & Oa & Ra); [reflexivity|].
        destruct (update_current_ev db Hdb s2 (m_sender m) (fun a => with_nonce a n1)) as (_ & Ob & Rb); [reflexivity|]. fold (set_nonce db s (m_sender m) n1) in Oa, Ra. fold (set_nonce db s2 (m_sender m) n1) in Ob, Rb. fold s3 in Ob, Rb.
        set (sa := set_nonce db s (m_sender m) n1) in *. destruct Q12 as (_ & Qs & Qr & Qt & Ql).
        assert (O3 : forall x, obj s3 x = obj sa x) by (intros x; rewrite Ob, Oa, !(same_obj _ _ _ Qs); reflexivity).
        assert (St : forall x, storage_of s3 x = storage_of s2 x /\ storage_of sa x = storage_of s x) by (intros x; split; apply restx_storage; assumption).
        unfold restx in Ra, Rb. injection Ra as Ra1 Ra2 Ra3 Ra4 Ra5 Ra6 Ra7 Ra8. injection Rb as Rb1 Rb2 Rb3 Rb4 Rb5 Rb6 Rb7 Rb8.
        assert (D : forall x k, deft db (obj s3 x) x k = deft db (obj s2 x) x k).
        { intros x k. rewrite Ob. destruct (decide (x = m_sender m)) as [->|]; [|reflexivity]. unfold deft. cbn [o_initial o_current]. destruct (o_initial (obj s2 (m_sender m))); [|reflexivity].
          destruct (o_current (obj s2 (m_sender m))) as [y|]; [reflexivity|]. cbn. destruct (_ =? 0); [apply Hdb|reflexivity]. }
        assert (Da : forall x k, deft db (obj sa x) x k = deft db (obj s x) x k) by (intros x k; rewrite <- O3, D; now rewrite (same_obj _ _ _ Qs)).
        assert (Hsame : same sa s3).
        { constructor; try congruence.
          - intros x k. unfold currentv. rewrite (cur_def db _ _ _ _ _ (D x k)), (cur_def db _ _ _ _ _ (Da x k)). destruct (St x) as (-> & ->). apply (same_cur _ _ _ Qs).
          - intros x k. unfold originalv. rewrite (orig_def db _ _ _ _ _ (D x k)), (orig_def db _ _ _ _ _ (Da x k)). destruct (St x) as (-> & ->). apply (same_orig _ _ _ Qs).
          - rewrite Rb3, Ra3. apply Qs.
          - intros x Hx. now rewrite Rb5, Ra5, Qt.
          - rewrite Rb7, Ra7. apply Qs.
          - rewrite Rb8, Ra8. apply Qs. }
        unfold access_account in E4. injection E4 as _ <-. unfold access_account. cbn [snd].
        split; [|split].
        - destruct Hsame. rewrite same_addr. generalize (bool_decide (c ∉ accessed_addresses sa)) as bb. intros bb. destruct bb; constructor; auto.
        - destruct Hsame. rewrite same_addr. generalize (bool_decide (c ∉ accessed_addresses sa)) as bb. intros bb. destruct bb; cbn; congruence.
        - destruct Hsame. rewrite same_addr. generalize (bool_decide (c ∉ accessed_addresses sa)) as bb. intros bb. destruct bb; cbn; congruence. }
      destruct (get_nonce db s4 c) as [cn s5] eqn:E5. destruct (get_nonce_quiet _ _ _ _ _ E5) as (Q5 & _).
      destruct (if negb (cn =? 0) then (kEmptyHash, s5) else get_code_hash db s5 c) as [ch s6] eqn:E6.
      assert (Q6 : quiet s5 s6) by (destruct (negb (cn =? 0)); [injection E6 as _ <-; apply quiet_refl|eapply get_code_hash_quiet; eassumption]).
      pose proof (quiet_trans _ _ _ _ Q5 Q6) as Q56.
      pose proof (step_trans _ _ _ (step_trans _ _ _ (step_trans _ _ _ (step_quiet _ _ Q12) S3) S4) (step_quiet _ _ Q56)) as S6.
      pose proof (back_trans _ _ _ Hbase0 (back_step _ _ Q56)) as Hbase.
      destruct (_ || _); [split; [split; [exact S6|cbn; lia]|intros _; exact Hbase]|].
      (* the deployment *)
      destruct (create_contract_ev db s6 c) as (X7 & B7 & _ & _ & _ & L7). set (s7 := create_contract db s6 c) in *.
      assert (S7 : step s6 s7) by (split; [exact X7|now apply flow_eq]).
      set (s8 := if _ <=? rev then set_nonce db s7 c 1 else s7).
      assert (S8 : step s7 s8) by (unfold s8; destruct (_ <=? rev); [apply set_nonce_step|apply step_refl]).
      assert (B8 : forall x, bal s8 x = bal s x).
      { intros x. assert (B7' : bal s8 x = bal s7 x) by (unfold s8; destruct (_ <=? rev); [apply (set_nonce_ev db Hdb)|reflexivity]). rewrite B7', B7.
        destruct Q56 as (_ & Q & _). rewrite (bal_same _ _ Q). destruct (access_account_ev db _ _ _ _ E4) as (_ & O4). rewrite (bal_obj _ _ O4).
        unfold s3. rewrite (proj1 (proj2 (set_nonce_ev db Hdb s2 (m_sender m) n1))). destruct Q12 as (_ & Q' & _). apply (bal_same _ _ Q'). }
      fold (transfer s8 (m_sender m) c (m_value m)). pose proof (transfer_step s8 (m_sender m) c (m_value m) ltac:(rewrite B8; exact Hrich)) as S9.
      destruct (transfer_ok s8 (m_sender m) c (m_value m)) as (_ & _ & _ & _ & L9 & _). set (s9 := transfer s8 (m_sender m) c (m_value m)) in *.
      set (m' := mkMsg KCall false (m_depth m) (m_gas m) c (m_sender m) [] (m_value m) 0).
      pose proof (execute_ok stack m' (m_input m) s9 Hd Hd' Hg L9) as He. destruct (execute _ _ _ _ _ _ _ _ _) as [r s10| |]; cbn in He; auto. destruct He as (S10 & Hr).
      destruct (deploy keccak db rev c r s10) as [r' s11] eqn:Ed. destruct (deploy_ok _ _ _ _ _ Ed ltac:(cbn in *; lia)) as (S11 & Hr').
      apply settle_ok.
      - exact S6.
      - eapply step_trans; [exact S7|]. eapply step_trans; [exact S8|]. eapply step_trans; [exact S9|]. eapply step_trans; eassumption.
      - cbn in Hr. destruct (is_success (r_status r')); cbn [r_gas]; lia.
      - intros x Hx. eapply back_trans; eassumption.
    Qed.

    Lemma body_ok stack m s : m_depth m = depth -> depth <= 1024 -> (0 <= m_gas m)%Z -> stack_ok stack m s ->
      fine bad (m_gas m) s (host_call_body keccak db rev pre_gas pre_run block_hash interp rec stack m s).
    Proof.
      intros Hd Hd' Hg Hst. unfold host_call_body.
      destruct (m_kind m) eqn:Ek.
      4,5: pose proof (create_ok stack m s Hd Hd' Hg) as H; destruct (create _ _ _ _ _ _ _ _ _) as [r s'| |]; cbn in H; auto; destruct H as ((A & B) & _); cbn; split; [exact A|destruct (is_revert (r_status r)); cbn [r_gas]; lia].
      all: pose proof (call_ok stack m s Hd Hd' Hg Hst ltac:(congruence) ltac:(congruence)) as H; destruct (call _ _ _ _ _ _ _ _ _ _) as [r s'| |]; cbn in H; auto; apply H.
    Qed.
  End Frame.

  Lemma host_call_ok fuel : forall self stack m s depth, may_call self depth m -> live s self ->
    fine (N.of_nat fuel + m_depth m < 1025) (m_gas m) s (host_call keccak db rev pre_gas pre_run block_hash interp fuel (self :: stack) m s).
  Proof.
    induction fuel as [|fuel IH]; intros self stack m s depth Hm Hl.
    - destruct Hm as (_ & _ & Hm & _). cbn. lia.
    - cbn [host_call]. destruct Hm as (H1 & H2 & H3 & H4).
      apply body_ok with (depth := m_depth m); auto.
      + intros self' stack' m' s' Hm' Hl'. specialize (IH self' stack' m' s' (m_depth m) Hm' Hl').
        destruct (host_call _ _ _ _ _ _ _ _ _ _ _) as [r x| |]; cbn in *; auto. destruct Hm' as (_ & E & _). lia.
      + unfold stack_ok. destruct (m_kind m); auto. rewrite H1; [exact Hl|discriminate].
  Qed.
  Lemma nested_ok fuel depth : forall self stack m s, may_call self depth m -> live s self ->
    fine (N.of_nat fuel + (depth + 1) < 1025) (m_gas m) s (host_call keccak db rev pre_gas pre_run block_hash interp fuel (self :: stack) m s).
  Proof.
    intros self stack m s Hm Hl. pose proof (host_call_ok fuel self stack m s depth Hm Hl) as H. destruct (host_call _ _ _ _ _ _ _ _ _ _ _); cbn in *; auto. destruct Hm as (_ & <- & _). exact H.
  Qed.
End Proofs.
