(** Canonicity of body and block decoding. *)
From Verif Require Import Base BaseFacts RlpSpec RlpModel RlpProofs TxModel TxSpec TxProofs TxProofs2 TxProofs3 TxProofs4 BlockModel BlockSpec BlockProofs CodecLemmas.

Lemma decode_block_inv b bk r : view b -> decode_block b = Ok (bk, r) ->
  wf_header (bk_header bk) /\ Forall wf_header (bk_ommers bk) /\
  exists es, Forall2 tx_form (bk_transactions bk) es /\
    b = rlp_lst (RLP (header_item (bk_header bk)) ++ rlp_lst (concat es) ++ RLP (Lst (map header_item (bk_ommers bk)))) ++ r.
Proof.
  intros V. unfold decode_block.
  destruct (decode_header b) as [[[l n] f]| | |] eqn:E; cbn [bind h_list h_payload_length]; try discriminate.
  destruct l; cbn [negb]; [|discriminate].
  apply decode_list_header_inv in E as (p & r' & -> & Hp & H64 & -> & Wp & Wr'); [|exact (view_wf _ V)].
  pose proof (view_lst _ _ V) as Vp.
  destruct (decode_hdr (p ++ r')) as [[hd f0]| | |] eqn:E0; cbn [bind]; try discriminate.
  apply decode_hdr_canon in E0 as (Wh & Sh & E0 & V0); [|exact Vp].
  destruct (decode_vector decode_tx f0) as [[txs f1]| | |] eqn:E1; cbn [bind]; try discriminate.
  apply (decode_vector_rel tx_form) in E1 as (es & Hes & E1 & V1); [|apply decode_tx_form|exact V0].
  destruct (decode_vector decode_hdr f1) as [[oms f2]| | |] eqn:E2; cbn [bind]; try discriminate.
  apply (decode_vector_canon ok_header (fun h => encode_hdr h false)) in E2 as (Ho & -> & Hb & V2); [|apply decode_hdr_dec_canon|exact V1].
  destruct (N.eqb_spec (blen f2) (blen (p ++ r') - n)) as [El|]; [|discriminate]. intros [= <- <-].
  rewrite E1 in E0. rewrite !app_assoc in E0. apply list_frame in E0 as [-> ->]; [|rewrite blen_app in El; lia].
  cbn [bk_header bk_transactions bk_ommers]. split; [exact Wh|]. split; [eapply Forall_impl; [|exact Ho]; now intros h [? _]|].
  exists es. split; [exact Hes|]. f_equal. f_equal. rewrite <- app_assoc.
  change (header_item hd) with (Lst (header_fields hd (negb false))). rewrite <- (encode_hdr_spec hd false) by assumption. f_equal. cbn [RLP]. now rewrite encode_hdr_items.
Qed.
