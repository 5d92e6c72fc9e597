(** Proofs about accounts, logs, receipts and blooms. *)
From Verif Require Import Base BaseFacts RlpSpec RlpModel RlpProofs TxModel TxSpec TxProofs TxProofs2 TxProofs3 TxProofs4.
From Verif Require Import BlockProofs TypesModel TypesSpec.

(** ** Account storage codec *)
Lemma firstn_blen (b r : bytes) : firstn (N.to_nat (blen b)) (b ++ r) = b.
Proof. apply firstn_app_exact. unfold blen. lia. Qed.
Lemma skipn_blen (b r : bytes) : skipn (N.to_nat (blen b)) (b ++ r) = r.
Proof. apply skipn_app_exact. unfold blen. lia. Qed.

Lemma sized_field_app b r : blen b < 256 -> sized_field (sized b ++ r) = Ok (b, r).
Proof.
  intros H. unfold sized_field, sized. cbn [app next_byte bind]. rewrite N.mod_small by exact H.
  rewrite blen_app. destruct (N.ltb_spec (blen b + blen r) (blen b)); [lia|]. now rewrite firstn_blen, skipn_blen.
Qed.

Lemma skip_field_app b r : blen b < 256 -> skip_field (sized b ++ r) = Ok r.
Proof.
  intros H. unfold skip_field, sized. cbn [app next_byte bind]. rewrite N.mod_small by exact H. now rewrite skipn_blen.
Qed.

Lemma be64_len n : u64 n -> blen (big_endian64 n) <= 8.
Proof. intros H. rewrite big_endian64_BE, BE_blen by exact H. now apply byte_len_u64. Qed.
Lemma be256_len n : u256 n -> blen (big_endian256 n) <= 32.
Proof. intros H. rewrite big_endian256_BE, BE_blen by exact H. now apply byte_len_u256. Qed.
Lemma read64 n : u64 n -> read_uint64 (big_endian64 n) false = Ok n.
Proof. intros H. rewrite big_endian64_BE by exact H. apply read_uint_BE. exact H. Qed.
Lemma val256 n : u256 n -> be_to_N (big_endian256 n) = n.
Proof. intros H. rewrite big_endian256_BE by exact H. apply BE_val. Qed.

Lemma kEmptyHash_ok : hash32 kEmptyHash.
Proof. split; [reflexivity|]. apply be_fixed_wf. Qed.

(** bits of the field set *)
Lemma field_bits (b0 b1 b2 b3 : bool) :
  let fs := (if b0 then 1 else 0) + (if b1 then 2 else 0) + (if b2 then 4 else 0) + (if b3 then 8 else 0) in
  N.testbit fs 0 = b0 /\ N.testbit fs 1 = b1 /\ N.testbit fs 2 = b2 /\ N.testbit fs 3 = b3.
Proof. destruct b0, b1, b2, b3; repeat split; reflexivity. Qed.

Lemma decode_encode_account a omit : wf_account a ->
  decode_account (encode_for_storage a omit) = Ok (if omit then without_code_hash a else a).
Proof.
  intros (Wn & Wb & [Wc Wc'] & Wi). unfold encode_for_storage, decode_account.
  set (code := negb (bytes_eqb (a_code_hash a) kEmptyHash) && negb omit).
  destruct (field_bits (negb (a_nonce a =? 0)) (negb (a_balance a =? 0)) (negb (a_incarnation a =? 0)) code) as (-> & -> & -> & ->).
  assert (R : mkAccount (a_nonce a) (a_balance a) (if code then a_code_hash a else kEmptyHash) (a_incarnation a) =
              if omit then without_code_hash a else a).
  { unfold code. destruct omit; cbn [negb]; rewrite ?andb_false_r, ?andb_true_r; [reflexivity|].
    destruct (bytes_eqb (a_code_hash a) kEmptyHash) eqn:E; cbn [negb]; [|destruct a; reflexivity].
    apply bytes_eqb_eq in E. rewrite <- E. destruct a; reflexivity. }
  rewrite <- R. clear R.
  match goal with |- bind ?e _ = _ => assert (E1 : e = Ok (a_nonce a,
     (if negb (a_balance a =? 0) then sized (big_endian256 (a_balance a)) else [])
       ++ (if negb (a_incarnation a =? 0) then sized (big_endian64 (a_incarnation a)) else [])
       ++ (if code then 32 :: a_code_hash a else []))) end.
  { destruct (N.eqb_spec (a_nonce a) 0) as [E|E]; cbn [negb]; [rewrite E; reflexivity|].
    rewrite sized_field_app by (pose proof (be64_len _ Wn); lia). cbn [bind]. rewrite read64 by exact Wn. reflexivity. }
  rewrite E1. cbn [bind]. clear E1.
  match goal with |- bind ?e _ = _ => assert (E1 : e = Ok (a_balance a,
       (if negb (a_incarnation a =? 0) then sized (big_endian64 (a_incarnation a)) else [])
       ++ (if code then 32 :: a_code_hash a else []))) end.
  { destruct (N.eqb_spec (a_balance a) 0) as [E|E]; cbn [negb]; [rewrite E; reflexivity|].
    pose proof (be256_len _ Wb). rewrite sized_field_app by lia. cbn [bind].
    destruct (N.ltb_spec 32 (blen (big_endian256 (a_balance a)))); [lia|]. now rewrite val256. }
  rewrite E1. cbn [bind]. clear E1.
  match goal with |- bind ?e _ = _ => assert (E1 : e = Ok (a_incarnation a,
       (if code then 32 :: a_code_hash a else []))) end.
  { destruct (N.eqb_spec (a_incarnation a) 0) as [E|E]; cbn [negb]; [rewrite E; reflexivity|].
    rewrite sized_field_app by (pose proof (be64_len _ Wi); lia). cbn [bind]. rewrite read64 by exact Wi. reflexivity. }
  rewrite E1. cbn [bind]. clear E1.
  destruct code; [|reflexivity]. cbn [next_byte bind]. rewrite Wc. cbn [N.eqb Pos.eqb negb].
  destruct (N.ltb_spec 32 32); [lia|]. cbn [bind]. unfold blen in Wc.
  rewrite firstn_all2 by lia. reflexivity.
Qed.

Lemma encoding_length_exact a : wf_account a -> encoding_length_for_storage a = blen (encode_for_storage a false).
Proof.
  intros (Wn & Wb & [Wc _] & Wi). unfold encoding_length_for_storage, encode_for_storage. rewrite andb_true_r.
  rewrite blen_cons, !blen_app.
  destruct (negb (a_nonce a =? 0)), (negb (a_balance a =? 0)), (negb (a_incarnation a =? 0)), (negb (bytes_eqb (a_code_hash a) kEmptyHash));
    unfold sized; rewrite ?blen_cons, ?blen_nil; lia.
Qed.

Lemma extract_incarnation_encode a omit : wf_account a ->
  extract_incarnation (encode_for_storage a omit) = Ok (a_incarnation a).
Proof.
  intros (Wn & Wb & _ & Wi). unfold extract_incarnation, encode_for_storage.
  set (code := negb (bytes_eqb (a_code_hash a) kEmptyHash) && negb omit). cbn [next_byte bind].
  destruct (field_bits (negb (a_nonce a =? 0)) (negb (a_balance a =? 0)) (negb (a_incarnation a =? 0)) code) as (-> & -> & -> & _).
  match goal with |- bind ?e _ = _ => assert (E1 : e = Ok 
     ((if negb (a_balance a =? 0) then sized (big_endian256 (a_balance a)) else [])
       ++ (if negb (a_incarnation a =? 0) then sized (big_endian64 (a_incarnation a)) else [])
       ++ (if code then 32 :: a_code_hash a else []))) end.
  { destruct (N.eqb_spec (a_nonce a) 0) as [E|E]; cbn [negb]; [reflexivity|].
    apply skip_field_app. pose proof (be64_len _ Wn). lia. }
  rewrite E1. cbn [bind]. clear E1.
  match goal with |- bind ?e _ = _ => assert (E1 : e = Ok
       ((if negb (a_incarnation a =? 0) then sized (big_endian64 (a_incarnation a)) else [])
       ++ (if code then 32 :: a_code_hash a else []))) end.
  { destruct (N.eqb_spec (a_balance a) 0) as [E|E]; cbn [negb]; [reflexivity|].
    apply skip_field_app. pose proof (be256_len _ Wb). lia. }
  rewrite E1. cbn [bind]. clear E1.
  destruct (N.eqb_spec (a_incarnation a) 0) as [E|E]; cbn [negb]; [rewrite E; reflexivity|].
  unfold sized. cbn [app next_byte bind]. pose proof (be64_len _ Wi). rewrite N.mod_small by lia.
  rewrite substr0_app. now apply read64.
Qed.

(** extract_incarnation agrees with decoding on every accepted input. *)
Lemma sized_field_skip b x r : sized_field b = Ok (x, r) -> skip_field b = Ok r.
Proof.
  unfold sized_field, skip_field. destruct b as [|l t]; [discriminate|]. cbn [next_byte bind].
  destruct (_ <? _); [discriminate|]. now intros [= _ <-].
Qed.

Lemma extract_agrees e a : decode_account e = Ok a -> e <> [] -> extract_incarnation e = Ok (a_incarnation a).
Proof.
  intros D Hne. destruct e as [|fs from]; [congruence|]. unfold decode_account in D. unfold extract_incarnation. cbn [next_byte bind].
  match type of D with bind ?e _ = _ => destruct e as [[nonce f1]| | |] eqn:E1; cbn [bind] in D; try discriminate end.
  assert (S1 : (if N.testbit fs 0 then skip_field from else @Ok bytes from) = Ok f1).
  { destruct (N.testbit fs 0) in E1 |- *; [|injection E1 as _ <-; reflexivity].
    destruct (sized_field from) as [[be f]| | |] eqn:E; cbn [bind] in E1; try discriminate.
    destruct (read_uint64 be false); cbn [bind] in E1; try discriminate. injection E1 as _ <-.
    eapply sized_field_skip; exact E. }
  rewrite S1. cbn [bind].
  match type of D with bind ?e _ = _ => destruct e as [[bal f2]| | |] eqn:E2; cbn [bind] in D; try discriminate end.
  assert (S2 : (if N.testbit fs 1 then skip_field f1 else @Ok bytes f1) = Ok f2).
  { destruct (N.testbit fs 1) in E2 |- *; [|injection E2 as _ <-; reflexivity].
    destruct (sized_field f1) as [[be f]| | |] eqn:E; cbn [bind] in E2; try discriminate.
    destruct (32 <? blen be); [discriminate|]. injection E2 as _ <-.
    eapply sized_field_skip; exact E. }
  rewrite S2. cbn [bind].
  match type of D with bind ?e _ = _ => destruct e as [[inc f3]| | |] eqn:E3; cbn [bind] in D; try discriminate end.
  assert (Hinc : a_incarnation a = inc).
  { match type of D with bind ?e _ = _ => destruct e as [ch| | |] eqn:E4; cbn [bind] in D; try discriminate end.
    injection D as <-. reflexivity. }
  rewrite Hinc. clear D Hinc.
  destruct (N.testbit fs 2) in E3 |- *; [|injection E3 as <- _; reflexivity].
  unfold sized_field in E3. destruct f2 as [|l t]; [discriminate|]. cbn [next_byte bind] in *.
  destruct (N.ltb_spec (blen t) l); [discriminate|]. cbn [bind] in E3. unfold substr0. rewrite N.min_l by lia.
  destruct (read_uint64 _ false); cbn [bind] in E3; try discriminate. congruence.
Qed.

(** Safety on well-framed inputs: every announced field has its length byte. *)
Lemma sized_field_safe b : b <> [] -> safe (sized_field b).
Proof.
  intros H. unfold sized_field. destruct b as [|l t]; [congruence|]. cbn [next_byte bind].
  destruct (_ <? _); [apply safe_err|apply safe_ok].
Qed.

(** ** Account RLP *)
Lemma account_rlp_spec a root : wf_account a -> hash32 root -> account_rlp a root = RLP (account_item a root).
Proof.
  intros (Wn & Wb & Wc & _) Wr. unfold account_rlp.
  assert (E : length_u64 (a_nonce a) + length_u256 (a_balance a) + (32 + 1) + (32 + 1) =
              blen (concat (map RLP [Num (a_nonce a); Num (a_balance a); Str root; Str (a_code_hash a)]))).
  { rewrite !blen_concat_cons. cbn [map concat]. rewrite blen_nil, (len64 _ Wn), (len256 _ Wb).
    rewrite <- (lenF 32 root), <- (lenF 32 (a_code_hash a)) by (assumption || lia). lia. }
  rewrite E. rewrite encode_header_hdr.
  - rewrite (enc64 _ Wn), (enc256 _ Wb), (encF 32 root), (encF 32 (a_code_hash a)) by (assumption || lia).
    unfold hdr_of, account_item. cbn [h_list h_payload_length]. cbn [RLP map concat]. now rewrite app_nil_r.
  - cbn [h_payload_length]. rewrite <- E. unfold length_u64, length_u256.
    destruct (_ <? _), (_ <? _); lia.
Qed.

Lemma account_item_ok a root : wf_account a -> hash32 root -> item_ok (account_item a root).
Proof.
  intros (Wn & Wb & [Wc Wc'] & _) [Wr Wr']. apply item_ok_lst. split.
  - unfold u64, u256 in *. constructor; [apply item_ok_Num; lia|]. constructor; [apply item_ok_Num; lia|].
    constructor; [split; [assumption|lia]|]. constructor; [split; [assumption|lia]|constructor].
  - rewrite !blen_concat_cons. cbn [map concat]. rewrite blen_nil.
    rewrite <- (len64 _ Wn), <- (len256 _ Wb).
    rewrite <- (lenF 32 root), <- (lenF 32 (a_code_hash a)) by (try (split; assumption); lia).
    unfold length_u64, length_u256. destruct (_ <? _), (_ <? _); lia.
Qed.

Lemma account_rlp_inj a b ra rb : wf_account a -> wf_account b -> hash32 ra -> hash32 rb ->
  account_rlp a ra = account_rlp b rb ->
  a_nonce a = a_nonce b /\ a_balance a = a_balance b /\ ra = rb /\ a_code_hash a = a_code_hash b.
Proof.
  intros Wa Wb Wra Wrb. rewrite !account_rlp_spec by assumption. intros H.
  apply RLP_inj in H; [|now apply account_item_ok|now apply account_item_ok].
  unfold account_item in H. injection H as H1 H2 H3 H4. auto using BE_inj.
Qed.

(** ** Logs and receipts *)
Lemma topics_fixed ts : Forall hash32 ts ->
  (forall x, In x ts -> length_bytes32 = blen (encode_fixed x)) /\ (forall x, In x ts -> encode_fixed x = RLP (Str x)).
Proof.
  intros H. rewrite Forall_forall in H. split; intros x Hx; destruct (H x Hx) as [L W].
  - unfold encode_fixed. rewrite blen_cons, L. reflexivity.
  - apply (encF 32); [lia|lia|split; assumption].
Qed.

Lemma topics_concat ts : Forall hash32 ts -> concat (map encode_fixed ts) = concat (map RLP (map Str ts)).
Proof.
  intros H. destruct (topics_fixed ts H) as [_ E]. rewrite map_map. f_equal. apply map_ext_in. exact E.
Qed.

Section Log.
  Variable l : log.
  Hypothesis W : wf_log l.
  Hypothesis B : blen (RLP (log_item l)) < 2 ^ 64.

  Lemma log_parts : blen (log_data l) < 2 ^ 64 /\ blen (concat (map encode_fixed (log_topics l))) < 2 ^ 64.
  Proof.
    pose proof (small_elems _ B) as E. inversion E as [|? ? E1 E2]; subst. inversion E2 as [|? ? E3 E4]; subst.
    inversion E4 as [|? ? E5 _]; subst. split; [now apply small_str|].
    destruct W as (_ & Wt & _). rewrite topics_concat by exact Wt. now apply small_lst.
  Qed.

  Lemma enc_topics : encode_vector (fun _ => length_bytes32) encode_fixed (log_topics l) = RLP (Lst (map Str (log_topics l))).
  Proof.
    destruct W as (_ & Wt & _). destruct (topics_fixed _ Wt). apply encode_vector_spec; auto. apply log_parts.
  Qed.
  Lemma len_topics : length_vector (fun _ => length_bytes32) (log_topics l) = blen (RLP (Lst (map Str (log_topics l)))).
  Proof.
    rewrite <- enc_topics. destruct W as (_ & Wt & _). destruct (topics_fixed _ Wt).
    apply length_vector_spec; auto. apply log_parts.
  Qed.

  Lemma log_payload : h_payload_length (log_rlp_header l) =
    blen (concat (map RLP [Str (log_address l); Lst (map Str (log_topics l)); Str (log_data l)])).
  Proof.
    destruct log_parts as [Hd _]. unfold log_rlp_header. cbn [h_payload_length].
    rewrite !blen_concat_cons. cbn [map concat]. rewrite blen_nil, len_topics, (lenB _ Hd).
    destruct W as (Wa & _). rewrite <- (lenF 20 (log_address l)) by (assumption || lia). lia.
  Qed.

  Lemma length_log_spec : length_log l = blen (RLP (log_item l)).
  Proof.
    unfold length_log. rewrite log_payload. unfold log_item. cbn [RLP]. unfold rlp_lst at 1. rewrite blen_app, hdr_blen.
    - reflexivity.
    - apply (small_lst _ B).
  Qed.

  Lemma encode_log_spec : encode_log l = RLP (log_item l).
  Proof.
    destruct log_parts as [Hd _]. unfold encode_log. rewrite encode_header_hdr by (rewrite log_payload; apply (small_lst _ B)).
    unfold hdr_of. rewrite log_payload. rewrite enc_topics, (encB _ Hd), encB by (destruct W as ([-> _] & _); lia).
    unfold log_item. cbn [RLP map concat]. unfold rlp_lst at 3. cbn [h_list log_rlp_header]. now rewrite app_nil_r.
  Qed.
End Log.

Section Receipt.
  Variable r : receipt.
  Hypothesis W : wf_receipt r.
  Hypothesis B : blen (RLP (receipt_item r)) < 2 ^ 64.

  Lemma receipt_logs : blen (RLP (Lst (map log_item (rc_logs r)))) < 2 ^ 64.
  Proof.
    pose proof (small_elems _ B) as E. inversion E as [|? ? _ E2]; subst. inversion E2 as [|? ? _ E4]; subst.
    inversion E4 as [|? ? _ E6]; subst. inversion E6; subst. assumption.
  Qed.

  Lemma log_in l : In l (rc_logs r) -> encode_log l = RLP (log_item l) /\ length_log l = blen (encode_log l).
  Proof.
    intros Hl. pose proof (small_elems _ receipt_logs) as E. rewrite Forall_map in E. rewrite Forall_forall in E.
    destruct W as (_ & _ & Wl). rewrite Forall_forall in Wl. specialize (E l Hl). specialize (Wl l Hl).
    split; [now apply encode_log_spec|]. rewrite encode_log_spec by assumption. now apply length_log_spec.
  Qed.

  Lemma logs_concat : blen (concat (map encode_log (rc_logs r))) < 2 ^ 64.
  Proof.
    pose proof (small_lst _ receipt_logs) as S. rewrite map_map in S.
    rewrite (map_ext_in _ (fun l => RLP (log_item l))); [exact S|]. intros l Hl. now apply log_in.
  Qed.

  Lemma encode_receipt_spec : encode_receipt r = receipt_envelope r.
  Proof.
    pose proof receipt_logs as RL. unfold encode_receipt.
    assert (EL : encode_vector length_log encode_log (rc_logs r) = RLP (Lst (map log_item (rc_logs r)))).
    { apply encode_vector_spec; [| |apply logs_concat]; intros l Hl; now apply log_in. }
    assert (LL : length_vector length_log (rc_logs r) = blen (RLP (Lst (map log_item (rc_logs r))))).
    { rewrite <- EL. apply length_vector_spec; [|apply logs_concat]. intros l Hl. now apply log_in. }
    destruct W as (Wg & Wb & _).
    assert (HP : h_payload_length (receipt_rlp_header r) =
      blen (concat (map RLP [Num (if rc_success r then 1 else 0); Num (rc_cumulative_gas_used r); Str (rc_bloom r); Lst (map log_item (rc_logs r))]))).
    { unfold receipt_rlp_header. cbn [h_payload_length]. rewrite !blen_concat_cons. cbn [map concat]. rewrite blen_nil, LL, (len64 _ Wg).
      rewrite lenB by (destruct Wb as [-> _]; lia). 
      replace (blen (RLP (Num (if rc_success r then 1 else 0)))) with 1 by (destruct (rc_success r); reflexivity). lia. }
    rewrite encode_header_hdr by (rewrite HP; apply (small_lst _ B)).
    unfold hdr_of. rewrite HP, EL, (enc64 _ Wg), (enc64 _ (u64_bool _)), encB by (destruct Wb as [-> _]; lia).
    unfold receipt_envelope, receipt_item. cbn [RLP map concat]. unfold rlp_lst at 3 5 7. cbn [h_list receipt_rlp_header].
    rewrite ?app_nil_r. unfold bool_u64. destruct (rc_type r); reflexivity.
  Qed.
End Receipt.

Lemma log_item_wf l : wf_log l -> item_wf (log_item l).
Proof.
  intros ((_ & Wa) & Wt & Wd). apply item_wf_lst. constructor; [exact Wa|]. constructor; [|constructor; [exact Wd|constructor]].
  apply item_wf_lst. rewrite Forall_map. eapply Forall_impl; [|exact Wt]. now intros t [_ ?].
Qed.
Lemma receipt_item_wf r : wf_receipt r -> item_wf (receipt_item r).
Proof.
  intros (_ & (_ & Wb) & Wl). apply item_wf_lst. repeat (constructor; [first [apply wf_num|exact Wb]|]). constructor; [|constructor].
  apply item_wf_lst. rewrite Forall_map. eapply Forall_impl; [|exact Wl]. apply log_item_wf.
Qed.

Lemma map_Str_inj (a b : list bytes) : map Str a = map Str b -> a = b.
Proof. revert b. induction a as [|x t IH]; intros [|y b] H; try discriminate; auto. injection H as -> H. f_equal. auto. Qed.
Lemma log_item_inj a b : log_item a = log_item b -> a = b.
Proof. destruct a, b. unfold log_item. cbn. intros [= -> H ->]. apply map_Str_inj in H. now subst. Qed.
Lemma logs_item_inj a b : map log_item a = map log_item b -> a = b.
Proof.
  revert b. induction a as [|x t IH]; intros [|y b] H; try discriminate; auto. cbn [map] in H.
  assert (H1 : log_item x = log_item y) by congruence. assert (H2 : map log_item t = map log_item b) by congruence.
  f_equal; auto using log_item_inj.
Qed.

Lemma encode_log_inj a b : wf_log a -> wf_log b -> blen (RLP (log_item a)) < 2 ^ 64 -> blen (RLP (log_item b)) < 2 ^ 64 ->
  encode_log a = encode_log b -> a = b.
Proof.
  intros Wa Wb Sa Sb. rewrite !encode_log_spec by assumption. intros H. apply log_item_inj.
  apply RLP_inj; auto; apply item_ok_of_size; auto using log_item_wf.
Qed.

Lemma encode_receipt_inj a b : wf_receipt a -> wf_receipt b -> blen (RLP (receipt_item a)) < 2 ^ 64 -> blen (RLP (receipt_item b)) < 2 ^ 64 ->
  encode_receipt a = encode_receipt b -> a = b.
Proof.
  intros Wa Wb Sa Sb. rewrite !encode_receipt_spec by assumption. intros H.
  assert (Oa : item_ok (receipt_item a)) by (apply item_ok_of_size; auto using receipt_item_wf).
  assert (Ob : item_ok (receipt_item b)) by (apply item_ok_of_size; auto using receipt_item_wf).
  assert (K : rc_type a = rc_type b /\ receipt_item a = receipt_item b).
  { unfold receipt_envelope in H. unfold receipt_item in *.
    destruct (RLP_Lst_first [Num (if rc_success a then 1 else 0); Num (rc_cumulative_gas_used a); Str (rc_bloom a); Lst (map log_item (rc_logs a))]) as (x1 & y1 & E1 & H1).
    destruct (RLP_Lst_first [Num (if rc_success b then 1 else 0); Num (rc_cumulative_gas_used b); Str (rc_bloom b); Lst (map log_item (rc_logs b))]) as (x2 & y2 & E2 & H2).
    destruct (rc_type a), (rc_type b); try discriminate H;
      try (rewrite E1 in H; injection H as Hx _; lia);
      try (rewrite E2 in H; injection H as Hx _; lia);
      (split; [reflexivity|]); apply RLP_inj; auto; congruence. }
  destruct K as [Kt K]. destruct a as [ta sa ga ba la], b as [tb sb gb bb lb]. unfold receipt_item in K. cbn [rc_type rc_success rc_cumulative_gas_used rc_bloom rc_logs] in *.
  subst tb. unfold Num in K. injection K as K1 K2 K3 K4.
  apply BE_inj in K1, K2. apply logs_item_inj in K4. subst. f_equal. destruct sa, sb; congruence.
Qed.

(** ** Bloom *)
Lemma be_to_N_testbit bl b : wf_bytes bl -> b < 8 * blen bl ->
  N.testbit (be_to_N bl) b = N.testbit (nth (length bl - 1 - N.to_nat (b / 8)) bl 0) (b mod 8).
Proof.
  revert b. induction bl as [|x bl IH] using rev_ind; intros b W H.
  - rewrite blen_nil in H. lia.
  - apply wf_app in W as [W Wx]. apply wf_cons in Wx as [Wx _]. rewrite be_to_N_snoc.
    rewrite app_length. cbn [length]. rewrite blen_app, blen_cons, blen_nil in H. unfold wf_byte in Wx.
    destruct (N.ltb_spec b 8) as [Hb|Hb].
    + rewrite N.div_small, N.mod_small by exact Hb.
      replace (length bl + 1 - 1 - N.to_nat 0)%nat with (length bl) by lia.
      rewrite app_nth2, Nat.sub_diag by lia. cbn [nth].
      rewrite <- (N.mod_pow2_bits_low _ 8) by exact Hb. change (2 ^ 8) with 256. f_equal. lia.
    + assert (E : N.testbit (be_to_N bl * 256 + x) b = N.testbit (be_to_N bl) (b - 8)).
      { replace (be_to_N bl) with ((be_to_N bl * 256 + x) / 2 ^ 8) at 2 by (change (2 ^ 8) with 256; lia).
        rewrite N.div_pow2_bits. f_equal. lia. }
      rewrite E, IH by (assumption || lia).
      replace ((b - 8) mod 8) with (b mod 8) by lia.
      rewrite app_nth1 by (unfold blen in *; lia). f_equal. f_equal. unfold blen in *. lia.
Qed.

Lemma or_at_length i v bl : length (or_at i v bl) = length bl.
Proof. revert i. induction bl as [|x t IH]; intros [|i]; cbn; auto. Qed.
Lemma nth_or_at i v bl j : nth j (or_at i v bl) 0 = if (j =? i)%nat && (i <? length bl)%nat then N.lor (nth j bl 0) v else nth j bl 0.
Proof.
  revert i j. induction bl as [|x t IH]; intros [|i] [|j]; cbn; auto; try (destruct (j =? i)%nat; reflexivity). apply IH.
Qed.
Lemma lor_byte a b : a < 256 -> b < 256 -> N.lor a b < 256.
Proof.
  intros Ha Hb. destruct (N.eq_dec (N.lor a b) 0) as [->|H]; [lia|]. change 256 with (2 ^ 8). apply N.log2_lt_pow2; [lia|].
  rewrite N.log2_lor. assert (L : forall x, x < 256 -> N.log2 x < 8).
  { intros x Hx. destruct (N.eq_dec x 0) as [->|]; [reflexivity|]. apply N.log2_lt_pow2; [lia|exact Hx]. }
  pose proof (L a Ha). pose proof (L b Hb). lia.
Qed.
Lemma or_at_wf i v bl : v < 256 -> wf_bytes bl -> wf_bytes (or_at i v bl).
Proof.
  intros Hv W. revert i. induction W as [|x t Hx W IH]; intros [|i]; cbn; try constructor; auto. now apply lor_byte. apply IH.
Qed.

Lemma m3_bit_spec h i : m3_bit h i = (256 * nth i h 0 + nth (i + 1) h 0) mod 2048.
Proof.
  unfold m3_bit. change 0x7FF with (N.ones 11). rewrite N.land_ones, N.shiftl_mul_pow2. f_equal. change (2 ^ 8) with 256. lia.
Qed.

Lemma set_bit_wf bl bit : wf_bytes bl -> wf_bytes (set_bit bl bit).
Proof. intros W. apply or_at_wf; [|exact W]. apply N.mod_lt. lia. Qed.
Lemma set_bit_length bl bit : length (set_bit bl bit) = length bl.
Proof. apply or_at_length. Qed.

Lemma set_bit_has bl bit b : wf_bytes bl -> length bl = 256%nat -> bit < 2048 -> b < 2048 ->
  bloom_has (set_bit bl bit) b <-> bloom_has bl b \/ b = bit.
Proof.
  intros W L Hbit Hb. unfold bloom_has.
  assert (BL : blen bl = 256) by (unfold blen; lia).
  assert (BS : blen (set_bit bl bit) = 256) by (unfold blen; rewrite set_bit_length; lia).
  rewrite !be_to_N_testbit; [| |lia| |lia]; auto using set_bit_wf.
  rewrite set_bit_length, L. unfold set_bit. rewrite nth_or_at, L.
  rewrite N.shiftl_1_l, (N.mod_small (2 ^ (bit mod 8))).
  2: { change 256 with (2 ^ 8). apply N.pow_lt_mono_r; [lia|]. pose proof (N.mod_lt bit 8). lia. }
  set (i := N.to_nat (256 - 1 - bit / 8)). set (j := (256 - 1 - N.to_nat (b / 8))%nat).
  destruct (Nat.eqb_spec j i) as [E|E].
  - destruct (Nat.ltb_spec i 256); [|lia]. cbn [andb]. rewrite N.lor_spec, N.pow2_bits_eqb.
    rewrite orb_true_iff, N.eqb_eq. split; (intros [H1|H1]; [now left|right]); [|subst; reflexivity].
    assert (b / 8 = bit / 8) by lia. lia.
  - cbn [andb]. split; [now left|]. intros [H1| ->]; [exact H1|]. exfalso. apply E. lia.
Qed.

Section BloomProofs.
  Variable keccak : bytes -> bytes.
  Local Notation inv bl := (wf_bytes bl /\ length (bl : bytes) = 256%nat) (only parsing).

  Lemma m3_inv bl x : inv bl -> inv (m3_2048 keccak bl x).
  Proof. intros [W L]. unfold m3_2048. cbn [fold_left]. split; [auto using set_bit_wf|now rewrite !set_bit_length]. Qed.

  Lemma m3_has bl x b : inv bl -> b < 2048 -> bloom_has (m3_2048 keccak bl x) b <-> bloom_has bl b \/ entry_bit keccak x b.
  Proof.
    intros [W L] Hb. unfold m3_2048. cbn [fold_left].
    assert (M : forall i, m3_bit (keccak x) i < 2048) by (intros i; rewrite m3_bit_spec; apply N.mod_lt; lia).
    rewrite !set_bit_has; rewrite ?set_bit_length; auto using set_bit_wf.
    rewrite !m3_bit_spec. unfold entry_bit. split.
    - intros [[[H| ->]| ->]| ->]; [now left|right; exists 0%nat|right; exists 1%nat|right; exists 2%nat]; (split; [lia|reflexivity]).
    - intros [H|(k & Hk & ->)]; [tauto|]. destruct k as [|[|[|k]]]; [left; left; right|left; right|right|lia]; reflexivity.
  Qed.

  Lemma m3_list_inv xs bl : inv bl -> inv (fold_left (m3_2048 keccak) xs bl).
  Proof. revert bl. induction xs as [|x xs IH]; intros bl I; cbn [fold_left]; auto using m3_inv. Qed.
  Lemma m3_list_has xs bl b : inv bl -> b < 2048 ->
    bloom_has (fold_left (m3_2048 keccak) xs bl) b <-> bloom_has bl b \/ exists x, In x xs /\ entry_bit keccak x b.
  Proof.
    intros I Hb. revert bl I. induction xs as [|x xs IH]; intros bl I; cbn [fold_left].
    - split; [now left|]. intros [H|(x & [] & _)]; exact H.
    - rewrite IH by now apply m3_inv. rewrite m3_has by assumption. cbn [In]. split.
      + intros [[H|H]|(y & Hy & H)]; eauto.
      + intros [H|(y & [->|Hy] & H)]; eauto.
  Qed.

  Lemma logs_fold_has logs bl b : inv bl -> b < 2048 ->
    inv (fold_left (fun bl l => fold_left (m3_2048 keccak) (log_topics l) (m3_2048 keccak bl (log_address l))) logs bl) /\
    (bloom_has (fold_left (fun bl l => fold_left (m3_2048 keccak) (log_topics l) (m3_2048 keccak bl (log_address l))) logs bl) b
      <-> bloom_has bl b \/ exists x, log_entries logs x /\ entry_bit keccak x b).
  Proof.
    intros I Hb. revert bl I. induction logs as [|l logs IH]; intros bl I; cbn [fold_left].
    - split; [exact I|]. split; [now left|]. intros [H|(x & (l & [] & _) & _)]; exact H.
    - destruct (IH (fold_left (m3_2048 keccak) (log_topics l) (m3_2048 keccak bl (log_address l)))) as [I' H'].
      { apply m3_list_inv. now apply m3_inv. }
      split; [exact I'|]. rewrite H'. rewrite m3_list_has by (auto; now apply m3_inv). rewrite m3_has by assumption.
      unfold log_entries. split.
      + intros [[[H|H]|(y & Hy & H)]|(y & (l' & Hl & Hy) & H)]; [now left| | |]; right.
        * exists (log_address l). split; [exists l; split; [now left|now left]|exact H].
        * exists y. split; [exists l; split; [now left|now right]|exact H].
        * exists y. split; [exists l'; split; [now right|exact Hy]|exact H].
      + intros [H|(y & (l' & [->|Hl] & Hy) & H)]; [tauto| |].
        * left. destruct Hy as [->|Hy]; [left; now right|]. right. eauto.
        * right. exists y. split; [exists l'; auto|exact H].
  Qed.

  Lemma zeros_inv : inv (zeros 256).
  Proof. split; [apply wf_zeros|reflexivity]. Qed.

  Lemma zeros_has b : ~ bloom_has (zeros 256) b.
  Proof.
    unfold bloom_has. replace (be_to_N (zeros 256)) with 0; [rewrite N.bits_0; discriminate|].
    pose proof (be_to_N_zeros 256 []) as H. rewrite app_nil_r in H. now rewrite H.
  Qed.

  Lemma logs_bloom_has logs b : b < 2048 ->
    bloom_has (logs_bloom keccak logs) b <-> exists x, log_entries logs x /\ entry_bit keccak x b.
  Proof.
    intros Hb. unfold logs_bloom. destruct (logs_fold_has logs (zeros 256) b zeros_inv Hb) as [_ H]. rewrite H.
    pose proof (zeros_has b). tauto.
  Qed.
  Lemma logs_bloom_inv logs : inv (logs_bloom keccak logs).
  Proof. unfold logs_bloom. now destruct (logs_fold_has logs (zeros 256) 0 zeros_inv eq_refl). Qed.
End BloomProofs.

Lemma join_length a b : length a = length b -> length (join_bloom a b) = length a.
Proof. revert b. induction a as [|x a IH]; intros [|y b] H; cbn in *; try discriminate; auto. Qed.
Lemma join_wf a b : wf_bytes a -> wf_bytes b -> wf_bytes (join_bloom a b).
Proof.
  revert b. induction a as [|x a IH]; intros [|y b] Ha Hb; cbn; auto. apply wf_cons in Ha as [? ?], Hb as [? ?].
  constructor; [now apply lor_byte|]. now apply IH.
Qed.
Lemma nth_join a b i : length a = length b -> nth i (join_bloom a b) 0 = N.lor (nth i a 0) (nth i b 0).
Proof. revert b i. induction a as [|x a IH]; intros [|y b] [|i] H; cbn in *; try discriminate; auto. Qed.

Lemma join_has a b k : wf_bytes a -> wf_bytes b -> length a = 256%nat -> length b = 256%nat -> k < 2048 ->
  bloom_has (join_bloom a b) k <-> bloom_has a k \/ bloom_has b k.
Proof.
  intros Wa Wb La Lb Hk. unfold bloom_has.
  assert (LJ : length (join_bloom a b) = 256%nat) by (rewrite join_length; congruence).
  rewrite !be_to_N_testbit; auto using join_wf; try (unfold blen; lia).
  rewrite LJ, La, Lb. rewrite nth_join by congruence. rewrite N.lor_spec, orb_true_iff. reflexivity.
Qed.
