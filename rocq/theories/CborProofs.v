(** CBOR of logs and receipts. *)
From stdpp Require Import gmap.
From Verif Require Import Base BaseFacts TxModel TypesModel DbTable DbModel DbSpec DbProofs BufferModel BufferSpec BufferProofs3 CborSpec CborModel.

(** ** Reading is deterministic *)
Scheme reads_ind2 := Induction for reads Sort Prop with reads_all_ind2 := Induction for reads_all Sort Prop.
Combined Scheme reads_mut from reads_ind2, reads_all_ind2.
Lemma reads_head b x r : reads b x r -> exists m n r', head b = Some (m, n, r') /\ m = match x with CUint _ => 0 | CBytes _ => 2 | CArr _ => 4 | CNull => 7 end.
Proof. intros H. destruct H as [b n r H|b s r H|b l r r' H _|r]; [eexists _, _, _; split; [exact H|reflexivity]..|]. exists 7, 22, r. split; reflexivity. Qed.
Lemma reads_det : (forall b x r, reads b x r -> forall y s, reads b y s -> y = x /\ s = r) /\ (forall b l r, reads_all b l r -> forall l' s, reads_all b l' s -> length l' = length l -> l' = l /\ s = r).
Proof.
  apply reads_mut.
  - intros b n r H y s Y. pose proof (reads_head _ _ _ Y) as (m & k & r' & E & M). rewrite H in E. destruct Y as [b n' s Y|b z s Y|b l z s Y _|s]; try (rewrite <- M in E; discriminate E); try (exfalso; congruence); try (injection E as <- _ _; discriminate M). rewrite H in Y. injection Y as -> ->. auto.
  - intros b z r H y s Y. pose proof (reads_head _ _ _ Y) as (m & k & r' & E & M). rewrite H in E. destruct Y as [b n' s Y|b z' s Y|b l z' s Y _|s]; try (injection E as <- _ _; discriminate M). rewrite H in Y. injection Y as L Y. apply app_parts in Y as ( -> & -> ); [auto|]. unfold blen in L. lia.
  - intros b l r r' H _ IH y s Y. pose proof (reads_head _ _ _ Y) as (m & k & r0 & E & M). rewrite H in E. destruct Y as [b n' s Y|b z s Y|b l' r1 s Y Y2|s]; try (injection E as <- _ _; discriminate M). rewrite H in Y. injection Y as L <-. destruct (IH _ _ Y2) as ( -> & -> ); [lia|auto].
  - intros r y s Y. pose proof (reads_head _ _ _ Y) as (m & k & r' & E & M). change (head (246 :: r)) with (Some (7, 22, r)) in E. remember (246 :: r) as b eqn:B. destruct Y as [b n' s Y|b z s Y|b l z s Y _|s]; try (injection E as <- _ _; discriminate M). injection B as ->. auto.
  - intros r l' s Y L. destruct l' as [|x l']; [|discriminate]. inversion Y; auto.
  - intros r x r1 l r2 _ IHx _ IHl l' s Y L. destruct l' as [|x' l']; [discriminate|]. inversion Y as [|a0 a1 a2 a3 a4 Yx Yl]; subst. destruct (IHx _ _ Yx) as ( -> & -> ). destruct (IHl _ _ Yl) as ( -> & -> ); [cbn [length] in L; lia|]. auto.
Qed.

(** ** The encoder *)
Lemma head_argument m i k v r : m < 8 -> 24 <= i < 32 -> (i = 24 /\ k = 1%nat \/ i = 25 /\ k = 2%nat \/ i = 26 /\ k = 4%nat \/ i = 27 /\ k = 8%nat) -> v < 256 ^ N.of_nat k ->
  head ((32 * m + i) :: be_fixed k v ++ r) = Some (m, v, r).
Proof.
  intros Hm Hi Hk Hv. cbn [head]. assert (Q : (32 * m + i) / 32 = m) by (rewrite N.mul_comm, N.div_add_l by discriminate; rewrite N.div_small by lia; lia). assert (M : (32 * m + i) mod 32 = i) by (rewrite N.add_comm, N.mul_comm, N.mod_add by discriminate; apply N.mod_small; lia). rewrite Q, M.
  assert (A : argument k m (be_fixed k v ++ r) = Some (m, v, r)).
  { unfold argument. rewrite app_length, be_fixed_length. destruct (Nat.ltb_spec (k + length r) k); [lia|]. rewrite firstn_app, skipn_app, be_fixed_length, Nat.sub_diag. rewrite firstn_all2, skipn_all2 by (rewrite be_fixed_length; lia). cbn [firstn skipn app]. rewrite app_nil_r, be_to_N_be_fixed_small by exact Hv. reflexivity. }
  destruct (N.ltb_spec i 24); [lia|]. destruct Hk as [( -> & -> )|[( -> & -> )|[( -> & -> )|( -> & -> )]]]; exact A.
Qed.
Lemma head_written m v r : m < 8 -> v < 2 ^ 64 -> head (write_type_value m v ++ r) = Some (m, v, r).
Proof.
  intros Hm Hv. unfold write_type_value.
  destruct (N.ltb_spec v 24) as [L|_].
  - cbn [app head]. assert (Q : (32 * m + v) / 32 = m) by (rewrite N.mul_comm, N.div_add_l by discriminate; rewrite N.div_small by lia; lia). assert (M : (32 * m + v) mod 32 = v) by (rewrite N.add_comm, N.mul_comm, N.mod_add by discriminate; apply N.mod_small; lia). rewrite Q, M. destruct (N.ltb_spec v 24); [reflexivity|lia].
  - destruct (N.ltb_spec v (2 ^ 8)) as [L|_]; [apply (head_argument m 24 1); [exact Hm|lia|auto|exact L]|].
    destruct (N.ltb_spec v (2 ^ 16)) as [L|_]; [apply (head_argument m 25 2); [exact Hm|lia|auto|exact L]|].
    destruct (N.ltb_spec v (2 ^ 32)) as [L|_]; [apply (head_argument m 26 4); [exact Hm|lia|auto|exact L]|].
    apply (head_argument m 27 8); [exact Hm|lia|auto 6|exact Hv].
Qed.
Lemma to_int_ok n : n < 2 ^ 31 -> to_int n = Done n.
Proof. intros H. unfold to_int. destruct (N.ltb_spec n (2 ^ 31)); [reflexivity|lia]. Qed.
Lemma int_u64 n : n < 2 ^ 31 -> n < 2 ^ 64.
Proof. intros H. eapply N.lt_trans; [exact H|reflexivity]. Qed.
Lemma bytes_written s : blen s < 2 ^ 31 -> exists b, write_bytes s = Done b /\ forall r, reads (b ++ r) (CBytes s) r.
Proof.
  intros H. unfold write_bytes. rewrite to_int_ok by exact H. eexists. split; [reflexivity|]. intros r. apply R_bytes. rewrite <- app_assoc. apply head_written; [reflexivity|]. now apply int_u64.
Qed.
Lemma array_written n : n < 2 ^ 31 -> exists b, write_array n = Done b /\ forall r, head (b ++ r) = Some (4, n, r).
Proof.
  intros H. unfold write_array. rewrite to_int_ok by exact H. eexists. split; [reflexivity|]. intros r. apply head_written; [reflexivity|]. now apply int_u64.
Qed.
Lemma int_written n r : n < 2 ^ 64 -> reads (write_int n ++ r) (CUint n) r.
Proof. intros H. apply R_uint. now apply head_written. Qed.
Lemma each_written {A} (f : A -> out bytes) (g : A -> cbor) l : (forall x, In x l -> exists b, f x = Done b /\ forall r, reads (b ++ r) (g x) r) ->
  exists b, each f l = Done b /\ forall r, reads_all (b ++ r) (map g l) r.
Proof.
  induction l as [|x l IH]; intros H; [exists []; split; [reflexivity|]; intros r; constructor|]. destruct (H x (or_introl eq_refl)) as (a & Ea & Ra). destruct IH as (b & Eb & Rb); [intros y I; apply H; now right|].
  exists (a ++ b). cbn [each]. rewrite Ea. cbn [obind]. rewrite Eb. split; [reflexivity|]. intros r. rewrite <- app_assoc. cbn [map]. econstructor; [apply Ra|apply Rb].
Qed.
Lemma log_written l : log_fits l -> exists b, cbor_log l = Done b /\ forall r, reads (b ++ r) (log_cbor l) r.
Proof.
  intros (H1 & H2 & H3 & H4). unfold cbor_log. destruct (array_written 3 eq_refl) as (a & Ea & Ra). destruct (bytes_written _ H1) as (b & Eb & Rb). destruct (array_written _ H2) as (c & Ec & Rc).
  destruct (each_written write_bytes CBytes (log_topics l)) as (d & Ed & Rd); [intros x I; apply bytes_written; rewrite Forall_forall in H3; now apply H3|]. destruct (bytes_written _ H4) as (e & Ee & Re).
  rewrite Ea. cbn [obind]. rewrite Eb. cbn [obind]. rewrite Ec. cbn [obind]. rewrite Ed. cbn [obind]. rewrite Ee. cbn [obind]. eexists. split; [reflexivity|]. intros r. rewrite <- !app_assoc. eapply R_array; [apply Ra|]. econstructor; [apply Rb|]. econstructor; [|econstructor; [apply Re|constructor]].
  eapply R_array; [rewrite map_length; apply Rc|]. apply Rd.
Qed.
Lemma logs_written l : logs_fit l -> exists b, cbor_encode_logs l = Done b /\ forall r, reads (b ++ r) (logs_cbor l) r.
Proof.
  intros (H & F). unfold cbor_encode_logs. destruct (array_written _ H) as (a & Ea & Ra). destruct (each_written cbor_log log_cbor l) as (b & Eb & Rb); [intros x I; apply log_written; rewrite Forall_forall in F; now apply F|].
  rewrite Ea. cbn [obind]. rewrite Eb. cbn [obind]. eexists. split; [reflexivity|]. intros r. rewrite <- app_assoc. eapply R_array; [rewrite map_length; apply Ra|]. apply Rb.
Qed.
Lemma receipt_written c : rc_cumulative_gas_used c < 2 ^ 64 -> exists b, cbor_receipt c = Done b /\ forall r, reads (b ++ r) (receipt_cbor c) r.
Proof.
  intros H. unfold cbor_receipt. destruct (array_written 4 eq_refl) as (a & Ea & Ra). rewrite Ea. cbn [obind]. eexists. split; [reflexivity|]. intros r. rewrite <- !app_assoc. eapply R_array; [apply Ra|].
  econstructor; [apply int_written; destruct (rc_type c); reflexivity|]. econstructor; [apply R_null|]. econstructor; [apply int_written; destruct (rc_success c); reflexivity|]. econstructor; [now apply int_written|]. constructor.
Qed.
Lemma receipts_written l : receipts_fit l -> exists b, cbor_encode_receipts l = Done b /\ forall r, reads (b ++ r) (receipts_cbor l) r.
Proof.
  intros (H & F). unfold cbor_encode_receipts, receipts_cbor. destruct l as [|x l]; [exists [246]; split; [reflexivity|]; intros r; apply R_null|].
  destruct (array_written _ H) as (a & Ea & Ra). destruct (each_written cbor_receipt receipt_cbor (x :: l)) as (b & Eb & Rb); [intros y I; apply receipt_written; rewrite Forall_forall in F; now apply F|].
  rewrite Ea. cbn [obind]. rewrite Eb. cbn [obind]. eexists. split; [reflexivity|]. intros r. rewrite <- app_assoc. eapply R_array; [rewrite map_length; apply Ra|]. apply Rb.
Qed.
Lemma only_reading b x : (forall r, reads (b ++ r) x r) -> stands_for b x.
Proof. intros H. specialize (H []). rewrite app_nil_r in H. split; [exact H|]. intros y r Y. now apply (proj1 reads_det _ _ _ H). Qed.
Lemma map_injective {A B} (f : A -> B) l l' : (forall x y, In x l -> In y l' -> f x = f y -> x = y) -> map f l = map f l' -> l = l'.
Proof.
  revert l'. induction l as [|x l IH]; intros [|y l'] H E; try discriminate; [reflexivity|]. cbn [map] in E. assert (E1 : f x = f y) by congruence. assert (E2 : map f l = map f l') by congruence. f_equal; [apply H; [now left|now left|exact E1]|]. apply IH; [|exact E2]. intros a b I J. apply H; now right.
Qed.
Lemma log_cbor_inj l l' : log_cbor l = log_cbor l' -> l = l'.
Proof.
  destruct l as [a t d], l' as [a' t' d']. unfold log_cbor. cbn [log_address log_topics log_data]. intros E. assert (E1 : a = a') by congruence. assert (E2 : map CBytes t = map CBytes t') by congruence. assert (E3 : d = d') by congruence. subst. f_equal. apply (map_injective CBytes); [congruence|exact E2].
Qed.
Lemma receipt_cbor_inj r r' : receipt_cbor r = receipt_cbor r' -> kept r = kept r'.
Proof.
  destruct r as [t s g b l], r' as [t' s' g' b' l']. unfold receipt_cbor, kept. cbn [rc_type rc_success rc_cumulative_gas_used]. intros E. assert (E1 : type_number t = type_number t') by congruence. assert (E2 : (if s then 1 else 0) = (if s' then 1 else 0)) by congruence. assert (E3 : g = g') by congruence. subst. f_equal. f_equal; [destruct t, t'; try reflexivity; discriminate|destruct s, s'; try reflexivity; discriminate].
Qed.
