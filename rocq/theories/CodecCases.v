(** Concrete values that meet the hypotheses of the codec theorems. *)
From Verif Require Import Base BaseFacts RlpSpec RlpModel RlpProofs TxModel TxSpec TxProofs4 BlockModel BlockSpec BlockProofs CodecLemmas.
From Verif Require Import TypesModel TypesSpec TypesProofs TypesLemmas.

Lemma C03_case_lemma : length_tx sample_tx = 176 /\ (is_legacy (tx_typ sample_legacy_tx) = true /\ spec_v sample_legacy_tx < 2 ^ 256 /\ length_tx sample_legacy_tx = blen (encode_tx sample_legacy_tx))
  /\ length_hdr sample_header = blen (encode_hdr sample_header false) /\ length_vector length_u64 [1; 200; 70000] = blen (encode_vector length_u64 encode_u64 [1; 200; 70000]).
Proof. vm_compute. repeat split; reflexivity. Qed.

Definition sample_block : block := mkBlock sample_header [sample_tx; sample_legacy_tx] [sample_header].
Definition sample_body : block_body := mkBody [sample_tx; sample_legacy_tx] [sample_header].
Lemma sample_block_ok : wf_block sample_block /\ small_item (block_item sample_block).
Proof. destruct C06_witness_lemma as (W & S & B & _). split; [split; [exact W|exact B]|reflexivity]. Qed.

(** The canonical encodings as the decoder's input: views that are accepted. *)
Lemma view_of_wf b : wf_bytesb b = true -> blen b < 2 ^ 64 -> view b.
Proof. intros H L. split; [now apply wf_bytesb_ok|exact L]. Qed.
Lemma C05_case_lemma : (view (encode_tx sample_legacy_tx ++ [7]) /\ decode_tx (encode_tx sample_legacy_tx ++ [7]) = Ok (sample_legacy_tx, [7]) /\ tx_typ sample_legacy_tx = kLegacy)
  /\ (view mall_bytes /\ decode_tx mall_bytes = Ok (mall_tx, []) /\ tx_typ mall_tx <> kLegacy).
Proof. split; (split; [apply view_of_wf; reflexivity|]); (split; [vm_compute; reflexivity|]); [reflexivity|discriminate]. Qed.
Lemma C07_case_lemma : view (encode_hdr sample_header false ++ [1]) /\ decode_hdr (encode_hdr sample_header false ++ [1]) = Ok (sample_header, [1])
  /\ small_item (unsealed_item sample_header) /\ blen (encode_hdr sample_header true) < blen (encode_hdr sample_header false).
Proof. split; [apply view_of_wf; reflexivity|]. split; [vm_compute; reflexivity|]. split; reflexivity. Qed.
Lemma C08_case_lemma : view (encode_body sample_body) /\ decode_body (encode_body sample_body) = Ok (sample_body, [])
  /\ view (RLP (block_item sample_block)) /\ decode_block (RLP (block_item sample_block)) = Ok (sample_block, [])
  /\ view [0xC3; 0x80; 0x80; 0x80] /\ truncated_at_to [0xC3; 0x80; 0x80; 0x80].
Proof.
  split; [apply view_of_wf; vm_compute; reflexivity|]. split; [vm_compute; reflexivity|]. split; [apply view_of_wf; vm_compute; reflexivity|]. split; [vm_compute; reflexivity|]. split; [apply view_of_wf; reflexivity|].
  left. exists 3, [0x80; 0x80; 0x80]. split; [reflexivity|]. split; [exists 0, 0, 0; repeat split; reflexivity|]. split; [discriminate|reflexivity].
Qed.
Lemma C59_case_lemma : small_signing sample_tx /\ small_signing sample_legacy_tx
  /\ encode_tx_gen sample_tx true false <> encode_tx_gen sample_legacy_tx true false.
Proof. split; [reflexivity|]. split; [reflexivity|]. vm_compute. discriminate. Qed.

Definition sample_receipt : receipt := mkReceipt kEip1559 true 63000 (zeros 256) [sample_log; sample_log].
Lemma sample_receipt_ok : wf_receipt sample_receipt /\ blen (RLP (receipt_item sample_receipt)) < 2 ^ 64.
Proof.
  split; [|vm_compute; reflexivity]. split; [reflexivity|]. split; [split; [reflexivity|wfb]|]. destruct sample_log_ok as (W & _). repeat constructor; try apply W.
Qed.
Lemma C10_case_lemma : wf_account sample_account /\ hash32 (be_fixed 32 5) /\ hash32 (be_fixed 32 6) /\ account_rlp sample_account (be_fixed 32 5) <> account_rlp sample_account (be_fixed 32 6).
Proof. split; [exact sample_account_ok|]. split; [split; [reflexivity|wfb]|]. split; [split; [reflexivity|wfb]|]. vm_compute. discriminate. Qed.
(** A record with all four fields, one that is cut short, and a record no encoder writes (bytes after the last field). *)
Lemma C08_account_case_lemma : framed (announced 15) (skipn 1 (encode_for_storage sample_account false)) /\ framed (announced 3) [1; 5; 9; 1; 2]
  /\ decode_account [1; 1; 5; 99] = Ok (mkAccount 5 0 kEmptyHash 0).
Proof.
  split; [exact (encode_account_framed sample_account false sample_account_ok)|]. split; [|reflexivity]. change (announced 3) with [255; 32]. apply framed_cons; [discriminate|]. apply framed_short. reflexivity.
Qed.
