(** Final forms of the account, log, receipt and bloom lemmas. *)
From Verif Require Import Base BaseFacts RlpSpec RlpModel RlpProofs TxModel TxSpec TxProofs TxProofs2 TxProofs3 TxProofs4.
From Verif Require Import BlockProofs TypesModel TypesSpec TypesProofs CodecLemmas.

Lemma framed_field m ms from : framed (m :: ms) from ->
  sized_field from = Err kInputTooShort \/ exists be r, sized_field from = Ok (be, r) /\ framed ms r /\ blen be <= m.
Proof.
  intros H. inversion H as [|? ? l t Hs|? ? l t Hl Hf]; subst; unfold sized_field; cbn [next_byte bind].
  - left. destruct (N.ltb_spec (blen t) l); [reflexivity|lia].
  - destruct (N.ltb_spec (blen t) l); [now left|]. right. exists (firstn (N.to_nat l) t), (skipn (N.to_nat l) t).
    split; [reflexivity|]. split; [assumption|]. unfold blen in *. rewrite firstn_length. lia.
Qed.

Lemma read_uint64_nf b (lz : bool) : read_uint64 b false <> UB /\ read_uint64 b false <> NoFuel.
Proof. apply read_uint_safe. Qed.

Lemma decode_account_framed fs from : framed (announced fs) from -> decode_account (fs :: from) <> UB.
Proof.
  unfold announced, decode_account. intros F.
  assert (S : forall b A (k : N -> res A), (forall n, k n <> UB) -> bind (read_uint64 b false) k <> UB).
  { intros b A k Hk. destruct (read_uint64_nf b false) as [H _]. destruct (read_uint64 b false); cbn [bind]; [apply Hk|discriminate|congruence|discriminate]. }
  assert (K4 : forall (nonce bal inc : N) f, framed (if N.testbit fs 3 then [255] else []) f ->
    bind (if N.testbit fs 3 then let* '(len, from) := next_byte f in
         if negb (len =? 32) then Err kUnexpectedLength else if blen from <? len then Err kInputTooShort else Ok (firstn 32 from)
         else Ok kEmptyHash) (fun ch => Ok (mkAccount nonce bal ch inc)) <> UB).
  { intros nonce bal inc f Ff. destruct (N.testbit fs 3); cbn [bind]; [|discriminate]. inversion Ff; subst; cbn [next_byte bind];
    (destruct (_ =? _); cbn [negb]; [|cbn [bind]; discriminate]); (destruct (_ <? _); cbn [bind]; discriminate). }
  assert (K3 : forall (nonce bal : N) f, framed ((if N.testbit fs 2 then [255] else []) ++ (if N.testbit fs 3 then [255] else [])) f ->
     bind (if N.testbit fs 2 then let* '(be, from) := sized_field f in let* n := read_uint64 be false in Ok (n, from) else Ok (0, f))
     (fun '(inc, f) => bind (if N.testbit fs 3 then let* '(len, from) := next_byte f in
         if negb (len =? 32) then Err kUnexpectedLength else if blen from <? len then Err kInputTooShort else Ok (firstn 32 from)
         else Ok kEmptyHash) (fun ch => Ok (mkAccount nonce bal ch inc))) <> UB).
  { intros nonce bal f Ff. destruct (N.testbit fs 2); cbn [app] in Ff; [|cbn [bind]; now apply K4].
    destruct (framed_field _ _ _ Ff) as [-> |(be & r & -> & Fr & _)]; cbn [bind]; [discriminate|].
    destruct (read_uint64_nf be false) as [H _]. destruct (read_uint64 be false); cbn [bind]; [now apply K4|discriminate|congruence|discriminate]. }
  assert (K2 : forall (nonce : N) f, framed ((if N.testbit fs 1 then [32] else []) ++ (if N.testbit fs 2 then [255] else []) ++ (if N.testbit fs 3 then [255] else [])) f ->
     bind (if N.testbit fs 1 then let* '(be, from) := sized_field f in if 32 <? blen be then UB else Ok (be_to_N be, from) else Ok (0, f))
      (fun '(bal, f) => bind (if N.testbit fs 2 then let* '(be, from) := sized_field f in let* n := read_uint64 be false in Ok (n, from) else Ok (0, f))
     (fun '(inc, f) => bind (if N.testbit fs 3 then let* '(len, from) := next_byte f in
         if negb (len =? 32) then Err kUnexpectedLength else if blen from <? len then Err kInputTooShort else Ok (firstn 32 from)
         else Ok kEmptyHash) (fun ch => Ok (mkAccount nonce bal ch inc)))) <> UB).
  { intros nonce f Ff. destruct (N.testbit fs 1); cbn [app] in Ff; [|cbn [bind]; now apply K3].
    destruct (framed_field _ _ _ Ff) as [-> |(be & r & -> & Fr & Hl)]; cbn [bind]; [discriminate|].
    destruct (N.ltb_spec 32 (blen be)); [lia|]. cbn [bind]. now apply K3. }
  destruct (N.testbit fs 0); cbn [app] in F; [|cbn [bind]; now apply K2].
  destruct (framed_field _ _ _ F) as [-> |(be & r & -> & Fr & _)]; cbn [bind]; [discriminate|].
  destruct (read_uint64_nf be false) as [H _]. destruct (read_uint64 be false); cbn [bind]; [now apply K2|discriminate|congruence|discriminate].
Qed.

Lemma encode_account_framed a omit : wf_account a ->
  match encode_for_storage a omit with [] => False | fs :: from => framed (announced fs) from end.
Proof.
  intros (Wn & Wb & [Wc _] & Wi). unfold encode_for_storage, announced.
  set (code := negb (bytes_eqb (a_code_hash a) kEmptyHash) && negb omit).
  destruct (field_bits (negb (a_nonce a =? 0)) (negb (a_balance a =? 0)) (negb (a_incarnation a =? 0)) code) as (-> & -> & -> & ->).
  assert (F : forall m ms b r, blen b <= m -> m < 256 -> framed ms r -> framed (m :: ms) (sized b ++ r)).
  { intros m ms b r H1 H2 H3. unfold sized. cbn [app]. rewrite N.mod_small by lia. apply framed_cons; [exact H1|]. now rewrite skipn_blen. }
  pose proof (be64_len _ Wn). pose proof (be256_len _ Wb). pose proof (be64_len _ Wi).
  destruct (negb (a_nonce a =? 0)); cbn [app]; [apply F; [lia|lia|]|];
  (destruct (negb (a_balance a =? 0)); cbn [app]; [apply F; [lia|lia|]|];
  (destruct (negb (a_incarnation a =? 0)); cbn [app]; [apply F; [lia|lia|]|];
  (destruct code; cbn [app]; [|apply framed_nil]; apply framed_cons; [lia|apply framed_nil]))).
Qed.

Lemma extract_agrees' e a : e <> [] -> decode_account e = Ok a -> extract_incarnation e = Ok (a_incarnation a).
Proof. intros H D. now apply extract_agrees. Qed.

Lemma account_rlp_inj' a b ra rb : wf_account a -> wf_account b -> hash32 ra -> hash32 rb ->
  account_rlp a ra = account_rlp b rb <->
  a_nonce a = a_nonce b /\ a_balance a = a_balance b /\ ra = rb /\ a_code_hash a = a_code_hash b.
Proof.
  intros. split; [now apply account_rlp_inj|]. intros (E1 & E2 & -> & E4). unfold account_rlp. now rewrite E1, E2, E4.
Qed.

Lemma entry_bit_lt keccak x b : entry_bit keccak x b -> b < 2048.
Proof. intros (k & _ & ->). apply N.mod_lt. lia. Qed.

Lemma logs_bloom_exact keccak logs b :
  bloom_has (logs_bloom keccak logs) b <-> exists x, log_entries logs x /\ entry_bit keccak x b.
Proof.
  destruct (N.ltb_spec b 2048) as [H|H]; [now apply logs_bloom_has|]. split.
  - intros Hb. exfalso. unfold bloom_has in Hb. destruct (logs_bloom_inv keccak logs) as [W L].
    pose proof (be_to_N_bound _ W) as B. unfold blen in B. rewrite L in B.
    destruct (N.eq_dec (be_to_N (logs_bloom keccak logs)) 0) as [E|E]; [rewrite E, N.bits_0 in Hb; discriminate|].
    rewrite N.bits_above_log2 in Hb; [discriminate|]. apply N.log2_lt_pow2; [lia|].
    eapply N.lt_le_trans; [exact B|]. change (256 ^ N.of_nat 256) with (2 ^ 2048). apply N.pow_le_mono_r; lia.
  - intros (x & _ & E). apply entry_bit_lt in E. lia.
Qed.

Lemma logs_bloom_size keccak logs : blen (logs_bloom keccak logs) = 256 /\ wf_bytes (logs_bloom keccak logs).
Proof. destruct (logs_bloom_inv keccak logs) as [W L]. split; [unfold blen; rewrite L; reflexivity|exact W]. Qed.

Lemma be_to_N_inj a b : wf_bytes a -> wf_bytes b -> length a = length b -> be_to_N a = be_to_N b -> a = b.
Proof. intros Wa Wb L E. rewrite <- (be_fixed_be_to_N a Wa), <- (be_fixed_be_to_N b Wb). now rewrite L, E. Qed.

Lemma join_logs_bloom keccak l1 l2 :
  join_bloom (logs_bloom keccak l1) (logs_bloom keccak l2) = logs_bloom keccak (l1 ++ l2).
Proof.
  destruct (logs_bloom_inv keccak l1) as [W1 L1], (logs_bloom_inv keccak l2) as [W2 L2], (logs_bloom_inv keccak (l1 ++ l2)) as [W3 L3].
  apply be_to_N_inj; auto using join_wf; [rewrite join_length; congruence|].
  apply N.bits_inj. intros b.
  assert (J : wf_bytes (join_bloom (logs_bloom keccak l1) (logs_bloom keccak l2))) by auto using join_wf.
  assert (Hhi : forall bl, wf_bytes bl -> length bl = 256%nat -> 2048 <= b -> N.testbit (be_to_N bl) b = false).
  { intros bl W L Hb. pose proof (be_to_N_bound _ W) as B. unfold blen in B. rewrite L in B.
    destruct (N.eq_dec (be_to_N bl) 0) as [E|E]; [rewrite E; apply N.bits_0|]. apply N.bits_above_log2. apply N.log2_lt_pow2; [lia|].
    eapply N.lt_le_trans; [exact B|]. change (256 ^ N.of_nat 256) with (2 ^ 2048). apply N.pow_le_mono_r; lia. }
  destruct (N.ltb_spec b 2048) as [H|H].
  - apply Bool.eq_iff_eq_true. change (bloom_has (join_bloom (logs_bloom keccak l1) (logs_bloom keccak l2)) b <-> bloom_has (logs_bloom keccak (l1 ++ l2)) b).
    rewrite join_has by assumption. rewrite !logs_bloom_exact. unfold log_entries. split.
    + intros [(x & (l & Hl & Hx) & Hb)|(x & (l & Hl & Hx) & Hb)]; exists x; (split; [exists l; split; [apply in_or_app; auto|exact Hx]|exact Hb]).
    + intros (x & (l & Hl & Hx) & Hb). apply in_app_or in Hl as [Hl|Hl]; [left|right]; exists x; (split; [exists l; auto|exact Hb]).
  - rewrite !Hhi; auto. rewrite join_length; congruence.
Qed.

Lemma length_log_exact l : wf_log l -> blen (RLP (log_item l)) < 2 ^ 64 -> length_log l = blen (encode_log l).
Proof. intros W B. rewrite encode_log_spec by assumption. now apply length_log_spec. Qed.

Definition sample_account : account := mkAccount 5 1000000000000000000 (be_fixed 32 77) 2.
Lemma sample_account_ok : wf_account sample_account.
Proof. repeat split; try reflexivity; try apply be_fixed_wf. Qed.
Definition sample_log : log := mkLog (be_fixed 20 9) [be_fixed 32 1; be_fixed 32 2] [7; 8].
Lemma sample_log_ok : wf_log sample_log /\ blen (RLP (log_item sample_log)) < 2 ^ 64.
Proof. split; [|vm_compute; reflexivity]. split; [split; [reflexivity|apply be_fixed_wf]|]. split; [|wfb]. repeat constructor; apply be_fixed_wf. Qed.
