(** Proofs about the transaction codec. *)
From Verif Require Import Base BaseFacts RlpSpec RlpModel RlpProofs EcdsaModel TxModel TxSpec.

(** ** Sizes of items *)

Fixpoint item_wf (x : item) : Prop :=
  match x with
  | Str s => wf_bytes s
  | Lst l => (fix all (l : list item) : Prop :=
                match l with [] => True | y :: t => item_wf y /\ all t end) l
  end.

Lemma item_wf_lst l : item_wf (Lst l) <-> Forall item_wf l.
Proof.
  cbn [item_wf]. induction l as [|y t IH]; [split; [constructor|trivial]|].
  rewrite Forall_cons_iff, <- IH. reflexivity.
Qed.

Lemma rlp_lst_blen_gt p : blen p < blen (rlp_lst p).
Proof.
  unfold rlp_lst. rewrite blen_app. unfold hdr. destruct (_ <? _); rewrite blen_cons; lia.
Qed.

Lemma rlp_str_blen_ge s : blen s <= blen (rlp_str s).
Proof. rewrite rlp_str_alt. destruct (needs_header s); rewrite ?blen_app; lia. Qed.

Lemma blen_concat_cons (x : item) l : blen (concat (map RLP (x :: l))) = blen (RLP x) + blen (concat (map RLP l)).
Proof. cbn [map concat]. now rewrite blen_app. Qed.

Lemma blen_in_concat x l : In x l -> blen (RLP x) <= blen (concat (map RLP l)).
Proof.
  induction l as [|y t IH]; intros H; [destruct H|]. rewrite blen_concat_cons.
  destruct H as [->|H]; [lia|]. apply IH in H. lia.
Qed.

Lemma item_ok_of_size x : item_wf x -> blen (RLP x) < 2 ^ 64 -> item_ok x.
Proof.
  assert (H : forall k x, (item_size x <= k)%nat -> item_wf x -> blen (RLP x) < 2 ^ 64 -> item_ok x).
  { clear x. induction k as [|k IH]; intros x Hk Hw Hb.
    - destruct x; cbn in Hk; lia.
    - destruct x as [s|l]; cbn [RLP] in Hb.
      + split; [exact Hw|]. pose proof (rlp_str_blen_ge s). lia.
      + apply item_ok_lst. apply item_wf_lst in Hw. pose proof (rlp_lst_blen_gt (concat (map RLP l))).
        split; [|lia]. rewrite Forall_forall in *. intros x Hx. apply IH.
        * cbn [item_size] in Hk. clear -Hk Hx. induction l as [|y t IHl]; [destruct Hx|].
          cbn [map list_sum fold_right] in *. unfold list_sum in *. cbn [fold_right] in Hk.
          destruct Hx as [->|Hx]; [lia|]. apply IHl; [lia|assumption].
        * now apply Hw.
        * pose proof (blen_in_concat x l Hx). lia. }
  intros. eapply (H (item_size x)); eauto.
Qed.

(** ** Access list entries *)

Definition keys_ok (ks : list bytes) : Prop := Forall (fun k => blen k = 32 /\ wf_bytes k) ks.

Lemma keys_concat ks : keys_ok ks -> blen (concat (map encode_fixed ks)) = 33 * N.of_nat (length ks).
Proof.
  induction 1 as [|k ks [Hk _] _ IH]; [reflexivity|].
  cbn [map concat length]. rewrite blen_app, IH. unfold encode_fixed. rewrite blen_cons, Hk. lia.
Qed.

Lemma keys_RLP ks : keys_ok ks -> map encode_fixed ks = map RLP (map Str ks).
Proof.
  induction 1 as [|k ks [Hk _] _ IH]; [reflexivity|]. cbn [map]. f_equal; [|exact IH].
  rewrite encode_fixed_spec by lia. reflexivity.
Qed.

Lemma keys_len_in ks : keys_ok ks -> forall k, In k ks -> length_bytes32 = blen (encode_fixed k).
Proof.
  unfold keys_ok. rewrite Forall_forall. intros H k Hk. destruct (H k Hk) as [E _].
  unfold encode_fixed. rewrite blen_cons, E. reflexivity.
Qed.

Lemma encode_keys_spec ks : keys_ok ks -> blen (concat (map encode_fixed ks)) < 2 ^ 64 ->
  encode_vector (fun _ => length_bytes32) encode_fixed ks = RLP (Lst (map Str ks)) /\
  length_vector (fun _ => length_bytes32) ks = blen (RLP (Lst (map Str ks))).
Proof.
  intros H B. pose proof (keys_len_in ks H) as L.
  assert (E : encode_vector (fun _ => length_bytes32) encode_fixed ks = RLP (Lst (map Str ks))).
  { apply encode_vector_spec; auto. intros k Hk. unfold keys_ok in H. rewrite Forall_forall in H.
    destruct (H k Hk). apply encode_fixed_spec; lia. }
  split; [exact E|]. rewrite <- E. apply length_vector_spec; auto.
Qed.

Lemma fixed_RLP a : 1 < blen a -> blen a < 56 -> encode_fixed a = RLP (Str a).
Proof. intros. now rewrite encode_fixed_spec. Qed.

Lemma entry_payload e : wf_entry e -> blen (RLP (access_item e)) < 2 ^ 64 ->
  blen (concat (map encode_fixed (ale_storage_keys e))) < 2 ^ 64 /\
  h_payload_length (entry_rlp_header e) =
    blen (concat (map RLP [Str (ale_account e); Lst (map Str (ale_storage_keys e))])) /\
  h_payload_length (entry_rlp_header e) < 2 ^ 64.
Proof.
  intros (Ha & Wa & Hk) B. unfold access_item in B. cbn [RLP] in B.
  fold (RLP (Lst (map Str (ale_storage_keys e)))) in B.
  pose proof (rlp_lst_blen_gt (concat (map RLP [Str (ale_account e); Lst (map Str (ale_storage_keys e))]))) as G.
  set (p := concat (map RLP [Str (ale_account e); Lst (map Str (ale_storage_keys e))])) in *.
  assert (Hp : blen p = 21 + blen (RLP (Lst (map Str (ale_storage_keys e))))).
  { unfold p. rewrite !blen_concat_cons. cbn [map concat]. rewrite blen_nil.
    rewrite <- (fixed_RLP (ale_account e)) by lia. unfold encode_fixed. rewrite blen_cons, Ha. lia. }
  assert (Hc : blen (concat (map encode_fixed (ale_storage_keys e))) < 2 ^ 64).
  { rewrite (keys_RLP _ Hk). pose proof (rlp_lst_blen_gt (concat (map RLP (map Str (ale_storage_keys e))))).
    cbn [RLP] in Hp. change (rlp_lst p) with (rlp_lst p) in *. lia. }
  destruct (encode_keys_spec _ Hk Hc) as [_ L].
  split; [exact Hc|]. unfold entry_rlp_header. cbn [h_payload_length]. rewrite L, Hp. split; [reflexivity|]. lia.
Qed.

Lemma encode_entry_spec e : wf_entry e -> blen (RLP (access_item e)) < 2 ^ 64 ->
  encode_entry e = RLP (access_item e).
Proof.
  intros W B. destruct (entry_payload e W B) as (Hc & Hp & H64). destruct W as (Ha & Wa & Hk).
  unfold encode_entry. rewrite encode_header_hdr by exact H64.
  destruct (encode_keys_spec _ Hk Hc) as [-> _].
  unfold access_item. cbn [RLP]. unfold rlp_lst at 2. unfold hdr_of.
  replace (h_list (entry_rlp_header e)) with true by reflexivity. rewrite Hp.
  cbn [map concat RLP]. rewrite app_nil_r. rewrite encode_fixed_spec by lia. reflexivity.
Qed.

Lemma length_entry_spec e : wf_entry e -> blen (RLP (access_item e)) < 2 ^ 64 ->
  length_entry e = blen (RLP (access_item e)).
Proof.
  intros W B. destruct (entry_payload e W B) as (Hc & Hp & H64).
  unfold length_entry, access_item. cbn [RLP]. unfold rlp_lst at 1. rewrite blen_app, hdr_blen.
  - rewrite Hp. reflexivity.
  - rewrite Hp in H64. exact H64.
Qed.

Lemma decode_fixed32_rt : dec_rt (fun k => blen k = 32 /\ wf_bytes k) encode_fixed (decode_fixed 32).
Proof.
  intros k r [Hk _]. rewrite encode_fixed_spec by lia. rewrite <- Hk. apply decode_fixed_rt. rewrite Hk. reflexivity.
Qed.

Lemma decode_fixed32_canon : dec_canon (fun k => blen k = 32 /\ wf_bytes k) encode_fixed (decode_fixed 32).
Proof.
  intros b k r W H. apply decode_fixed_canon in H as (-> & Hk & Wk & _); [|exact (view_wf _ W)].
  split; [auto|]. rewrite encode_fixed_spec by lia. reflexivity.
Qed.

Definition ok_entry (e : access_entry) : Prop := wf_entry e /\ blen (RLP (access_item e)) < 2 ^ 64.

Lemma decode_entry_rt : dec_rt ok_entry encode_entry decode_entry.
Proof.
  intros e r [W B]. rewrite encode_entry_spec by assumption.
  destruct (entry_payload e W B) as (Hc & Hp & H64). destruct W as (Ha & Wa & Hk).
  unfold decode_entry, access_item. cbn [RLP].
  assert (Bp : blen (concat (map RLP [Str (ale_account e); Lst (map Str (ale_storage_keys e))])) < 2 ^ 64)
    by (rewrite <- Hp; exact H64).
  rewrite decode_list_header by exact Bp.
  cbn [bind h_list h_payload_length negb]. rewrite blen_app.
  replace (blen (concat (map RLP [Str (ale_account e); Lst (map Str (ale_storage_keys e))])) + blen r -
           blen (concat (map RLP [Str (ale_account e); Lst (map Str (ale_storage_keys e))]))) with (blen r) by lia.
  cbn [map concat RLP]. rewrite app_nil_r, <- !app_assoc.
  rewrite <- Ha, decode_fixed_rt by (rewrite Ha; reflexivity). cbn [bind].
  rewrite <- (keys_RLP _ Hk).
  rewrite (decode_vector_rt _ encode_fixed (decode_fixed 32) _ r decode_fixed32_rt); auto.
  - cbn [bind]. rewrite N.eqb_refl. destruct e; reflexivity.
  - intros k _. unfold encode_fixed. discriminate.
Qed.

(** A list decoder that checks the consumed length: reconstructing the list header. *)
Lemma list_frame p r' q f : p ++ r' = q ++ f -> blen f = blen p + blen r' - blen p -> p = q /\ f = r'.
Proof.
  intros E L. apply app_eq_length in E as [-> ->]; auto.
  assert (H : length (p ++ r') = length (q ++ f)) by now rewrite E.
  rewrite !app_length in H. unfold blen in *. lia.
Qed.

Lemma view_lst p r : view (rlp_lst p ++ r) -> view (p ++ r).
Proof. unfold rlp_lst. rewrite <- app_assoc. intros H. apply view_app in H. tauto. Qed.

Lemma decode_entry_canon : dec_canon ok_entry encode_entry decode_entry.
Proof.
  intros b e r V. unfold decode_entry.
  destruct (decode_header b) as [[[l n] from]| | |] eqn:E; cbn [bind h_list]; try discriminate.
  destruct l; cbn [negb]; [|discriminate]. cbn [h_payload_length].
  apply decode_list_header_inv in E as (p & r' & -> & Hp & H64 & -> & Wp & Wr'); [|exact (view_wf _ V)].
  pose proof (view_lst _ _ V) as Vpr.
  destruct (decode_fixed 20 (p ++ r')) as [[a f1]| | |] eqn:E1; cbn [bind]; try discriminate.
  apply decode_fixed_canon in E1 as (E1 & Ha & Wa & W1); [|exact (view_wf _ Vpr)].
  rewrite E1 in Vpr. apply view_app in Vpr as [_ V1].
  destruct (decode_vector (decode_fixed 32) f1) as [[ks f2]| | |] eqn:E2; cbn [bind]; try discriminate.
  apply (decode_vector_canon (fun k => blen k = 32 /\ wf_bytes k) encode_fixed) in E2 as (Hks & E2 & B2 & V2);
    [|exact decode_fixed32_canon|exact V1].
  rewrite blen_app, <- Hp. destruct (N.eqb_spec (blen f2) (blen p + blen r' - blen p)) as [El|]; [|discriminate].
  intros [= <- <-]. subst f1. rewrite app_assoc in E1.
  apply list_frame in E1 as [-> ->]; [|exact El].
  assert (We : wf_entry (mkEntry a ks)) by (repeat split; auto).
  assert (Hsh : rlp_lst (rlp_str a ++ rlp_lst (concat (map encode_fixed ks))) = RLP (access_item (mkEntry a ks))).
  { unfold access_item. cbn [RLP ale_account ale_storage_keys]. cbn [map concat]. rewrite app_nil_r.
    cbn [RLP]. rewrite (keys_RLP _ Hks). reflexivity. }
  rewrite Hsh in *. apply view_app in V as [[_ B] _].
  split; [split; assumption|]. now rewrite encode_entry_spec.
Qed.

Lemma decode_fixed_list_safe n : forall b, safe (decode_vector (decode_fixed n) b).
Proof. intros b. apply decode_vector_safe; [apply decode_fixed_safe|apply decode_fixed_consumes]. Qed.

Lemma decode_entry_safe b : safe (decode_entry b).
Proof.
  unfold decode_entry. apply safe_bind; [apply decode_header_safe|]. intros [h f] _.
  destruct (negb _); [apply safe_err|].
  apply safe_bind; [apply decode_fixed_safe|]. intros [a f1] _.
  apply safe_bind; [apply decode_fixed_list_safe|]. intros [ks f2] _.
  destruct (_ =? _); [apply safe_ok|apply safe_err].
Qed.

Lemma decode_header_le b h r : decode_header b = Ok (h, r) -> (length r <= length b)%nat.
Proof. intros E. now apply decode_header_length in E. Qed.

Lemma decode_entry_consumes : dec_consumes decode_entry.
Proof.
  intros b e r. unfold decode_entry. destruct (decode_header b) as [[h f]| | |] eqn:E; cbn [bind]; try discriminate.
  apply decode_header_le in E. destruct (negb _); [discriminate|].
  destruct (decode_fixed 20 f) as [[a f1]| | |] eqn:E1; cbn [bind]; try discriminate.
  apply decode_fixed_consumes in E1.
  destruct (decode_vector _ f1) as [[ks f2]| | |] eqn:E2; cbn [bind]; try discriminate.
  apply decode_vector_consumes in E2. destruct (_ =? _); [|discriminate]. intros [= _ <-]. lia.
Qed.
