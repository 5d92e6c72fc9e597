(** Objects and chain configurations built through the C interface, and concrete cases. *)
From stdpp Require Import gmap.
From Verif Require Import Base BaseFacts RlpSpec RlpModel RlpProofs TrieLemmas TypesModel TypesSpec TxModel TxSpec TxProofs TxProofs4 BlockModel BlockSpec BlockProofs BlockProofs2 CodecLemmas UtilModel UtilProofs
  ChainModel ChainSpec ChainProofs StateModel StateSpec StateProofs StateLemmas MemBufModel MemBufSpec StateRootSpec StateRootCases MemRootSpec MemRootModel MemRootCases WasmModel WasmSpec WasmProofs.

(** Configurations. *)
Definition set (c : chain_config) (s : setting) : chain_config :=
  match s with SetFork rev b => config_set_fork_block c rev b | SetMuirGlacier b => config_set_muir_glacier_block c b | SetDao b => config_set_dao_block c b end.
Definition configured (chain_id : N) (l : list setting) : chain_config := fold_left set l (new_config chain_id).
Definition known_fork (s : setting) : Prop := match s with SetFork rev _ => rev <= 10 | _ => True end.

Lemma last_setting_snoc {A} (f : setting -> option A) l c : last_setting f (l ++ [c]) = match f c with Some x => Some x | None => last_setting f l end.
Proof. induction l as [|d l IH]; cbn [last_setting app]; [now destruct (f c)|]. rewrite IH. destruct (f c); reflexivity. Qed.
Lemma configured_ok id l : Forall known_fork l ->
  cfg_chain_id (configured id l) = id /\ cfg_seal_engine (configured id l) = kNoProof /\ length (cfg_fork_blocks (configured id l)) = 10%nat
  /\ (forall r, 1 <= r <= 10 -> activation (configured id l) r = last_setting (fork_at r) l)
  /\ cfg_muir_glacier (configured id l) = last_setting muir_at l /\ cfg_dao_block (configured id l) = last_setting dao_at l.
Proof.
  induction l as [|s l IH] using rev_ind; intros F.
  - repeat split. intros r Hr. unfold activation. destruct (N.eqb_spec r 0); [lia|]. unfold configured, new_config. cbn [fold_left cfg_fork_blocks]. apply nth_repeat.
  - apply Forall_app in F as (F & Fs). apply Forall_cons_iff in Fs as (Fs & _). destruct (IH F) as (H1 & H2 & H3 & H4 & H5 & H6). clear IH.
    unfold configured in *. rewrite fold_left_app. cbn [fold_left]. set (c := fold_left set l (new_config id)) in *. clearbody c. rewrite !last_setting_snoc.
    destruct s as [rev b|b|b]; cbn [set muir_at dao_at].
    + unfold config_set_fork_block. destruct (set_revision_block_rest c rev (Some b)) as (E0 & E1 & E2 & E3 & E4 & E5). rewrite E1, E2, E3, E4, E5. repeat split; auto.
      intros r Hr. rewrite last_setting_snoc. cbn [fork_at]. destruct (N.eq_dec rev 0) as [->|Hn].
      * destruct (N.eqb_spec 0 r); [lia|]. replace (set_revision_block c 0 (Some b)) with c by reflexivity. now apply H4.
      * rewrite set_revision_block_activation by (cbn in Fs; lia). rewrite N.eqb_sym. destruct (rev =? r); [reflexivity|now apply H4].
    + unfold config_set_muir_glacier_block. cbn. repeat split; auto. intros r Hr. rewrite last_setting_snoc. now apply H4.
    + unfold config_set_dao_block. cbn. repeat split; auto. intros r Hr. rewrite last_setting_snoc. now apply H4.
Qed.
(** The rules in force: the latest fork whose last setting is not after the block. *)
Definition in_force (l : list setting) (n r : N) : Prop := r = 0 \/ exists b, last_setting (fork_at r) l = Some b /\ b <= n.
Lemma configured_revision id l n : Forall known_fork l ->
  revision (configured id l) n <= 10 /\ in_force l n (revision (configured id l) n) /\ forall r, r <= 10 -> in_force l n r -> r <= revision (configured id l) n.
Proof.
  intros F. destruct (configured_ok id l F) as (_ & _ & _ & A & _). pose proof (revision_le (configured id l) n) as L. split; [exact L|]. split.
  - destruct (revision_activated (configured id l) n) as (b & Hb & Hn). destruct (N.eq_dec (revision (configured id l) n) 0) as [E|E]; [now left|]. right. exists b. split; [|exact Hn]. rewrite <- A by lia. exact Hb.
  - intros r Hr [->|(b & Hb & Hn)]; [lia|]. destruct (N.eq_dec r 0); [lia|]. apply revision_latest; [exact Hr|]. exists b. split; [|exact Hn]. rewrite A by lia. exact Hb.
Qed.

(** Transactions and blocks. *)
Lemma transaction_exact b t : view b -> new_transaction b = Some t -> tx_form t b.
Proof.
  intros V. unfold new_transaction. destruct (decode_tx b) as [[u r]| | |] eqn:E; try discriminate. destruct r; [|discriminate]. intros [= ->].
  destruct (decode_tx_form b t [] V E) as (e & F & _ & H). rewrite app_nil_r in H. now subst e.
Qed.
Lemma transaction_found t : wf_tx t -> representable t -> small_tx t -> new_transaction (encode_tx t) = Some (no_sender t) /\ forall x, x <> [] -> new_transaction (encode_tx t ++ x) = None.
Proof.
  intros W R S. pose proof (decode_tx_roundtrip t) as E. split.
  - unfold new_transaction. rewrite <- (app_nil_r (encode_tx t)), E by assumption. reflexivity.
  - intros x Hx. unfold new_transaction. rewrite E by assumption. destruct x; [congruence|reflexivity].
Qed.
Lemma block_exact b bk : view b -> new_block b = Some bk ->
  wf_header (bk_header bk) /\ Forall wf_header (bk_ommers bk) /\ exists es, Forall2 tx_form (bk_transactions bk) es
    /\ b = rlp_lst (RLP (header_item (bk_header bk)) ++ rlp_lst (concat es) ++ RLP (Lst (map header_item (bk_ommers bk)))).
Proof.
  intros V. unfold new_block. destruct (decode_block b) as [[u r]| | |] eqn:E; try discriminate. destruct r; [|discriminate]. intros [= ->].
  destruct (decode_block_inv b bk [] V E) as (H1 & H2 & es & H3 & H4). rewrite app_nil_r in H4. eauto.
Qed.
Lemma block_found b : wf_block b -> small_item (block_item b) ->
  new_block (RLP (block_item b)) = Some (mkBlock (bk_header b) (map no_sender (bk_transactions b)) (bk_ommers b)) /\ forall x, x <> [] -> new_block (RLP (block_item b) ++ x) = None.
Proof.
  intros W S. split.
  - unfold new_block. rewrite <- (app_nil_r (RLP (block_item b))), decode_block_rt by assumption. reflexivity.
  - intros x Hx. unfold new_block. rewrite decode_block_rt by assumption. destruct x; [congruence|reflexivity].
Qed.
Lemma uint256_limbs a b c d : u64 a -> u64 b -> u64 c -> u64 d ->
  new_uint256_le a b c d < 2 ^ 256 /\ new_uint256_le a b c d mod 2 ^ 64 = a /\ new_uint256_le a b c d / 2 ^ 64 mod 2 ^ 64 = b
  /\ new_uint256_le a b c d / 2 ^ 128 mod 2 ^ 64 = c /\ new_uint256_le a b c d / 2 ^ 192 = d.
Proof.
  unfold u64, new_uint256_le. intros Ha Hb Hc Hd. split; [lia|].
  assert (Q : forall x y, x < 2 ^ 64 -> (x + y * 2 ^ 64) mod 2 ^ 64 = x /\ (x + y * 2 ^ 64) / 2 ^ 64 = y).
  { intros x y Hx. split; [rewrite N.mod_add by discriminate; now apply N.mod_small|]. rewrite N.div_add by discriminate. rewrite N.div_small by exact Hx. lia. }
  assert (E : a + b * 2 ^ 64 + c * 2 ^ 128 + d * 2 ^ 192 = a + (b + (c + d * 2 ^ 64) * 2 ^ 64) * 2 ^ 64) by lia. rewrite E.
  destruct (Q a (b + (c + d * 2 ^ 64) * 2 ^ 64) Ha) as (A1 & A2). destruct (Q b (c + d * 2 ^ 64) Hb) as (B1 & B2). destruct (Q c d Hc) as (C1 & C2).
  split; [exact A1|]. split; [now rewrite A2|]. change (2 ^ 128) with (2 ^ 64 * 2 ^ 64). change (2 ^ 192) with (2 ^ 64 * 2 ^ 64 * 2 ^ 64).
  rewrite <- !N.div_div by discriminate. rewrite A2, B2. split; [exact C1|exact C2].
Qed.

(** A concrete set-up: contract 9 with the value 7 in slot 5 and account 6 with a balance; slot 4 of contract 9 is set and
    cleared, account 2 is set and deleted. *)
Definition ptr20 (a : N) : bytes := be_fixed 20 a.
Definition contract9 : account := new_account 1 (Some 3).
Definition set_up : list call :=
  [SetAccount (ptr20 9) (Some contract9); SetStorage (ptr20 9) contract9 [4] [1]; SetStorage (ptr20 9) contract9 [5] [1; 0];
   SetAccount (ptr20 2) (Some (new_account 0 None)); SetCode (ptr20 9) contract9 [91; 0]; SetStorage (ptr20 9) contract9 [5] (be_fixed 32 7);
   SetAccount (ptr20 6) (Some (new_account 0 (Some 1000))); SetStorage (ptr20 9) contract9 [4] []; SetAccount (ptr20 2) None].
Lemma contract9_wf n b : n < 2 ^ 64 -> match b with Some x => x < 2 ^ 256 | None => True end -> wf_account (new_account n b).
Proof.
  intros Hn Hb. unfold wf_account, new_account. cbn [a_nonce a_balance a_code_hash a_incarnation].
  repeat split; try (unfold u64, u256; lia); try (destruct b; cbn; unfold u256; lia).
  - repeat (constructor; [reflexivity|]). constructor.
Qed.
Lemma ptr20_ok a : length (ptr20 a) = 20%nat /\ wf_bytes (ptr20 a).
Proof. split; [apply be_fixed_length|apply be_fixed_wf]. Qed.
Lemma set_up_ok : Forall call_ok set_up.
Proof.
  unfold set_up. assert (W : wf_account contract9) by (apply contract9_wf; [reflexivity|reflexivity]).
  assert (W2 : wf_account (new_account 0 None)) by (apply contract9_wf; [reflexivity|exact I]).
  assert (W6 : wf_account (new_account 0 (Some 1000))) by (apply contract9_wf; reflexivity).
  assert (B : forall l, forallb (fun x => x <? 256) l = true -> wf_bytes l) by (intros l H; apply Forall_forall; intros x Hx; rewrite forallb_forall in H; apply N.ltb_lt, H; first [exact Hx|now apply elem_of_list_In]).
  assert (A : forall a x, wf_account x -> call_ok (SetAccount (ptr20 a) (Some x))) by (intros a x Hx; split; [apply ptr20_ok|split; [apply ptr20_ok|exact Hx]]).
  assert (St : forall l v, wf_bytes l -> wf_bytes v -> call_ok (SetStorage (ptr20 9) contract9 l v)) by (intros l v Hl Hv; split; [apply ptr20_ok|split; [apply ptr20_ok|split; [exact W|split; assumption]]]).
  constructor; [exact (A 9 _ W)|]. constructor; [apply St; apply B; reflexivity|]. constructor; [apply St; apply B; reflexivity|]. constructor; [exact (A 2 _ W2)|]. constructor; [exact W|].
  constructor; [apply St; [apply B; reflexivity|apply be_fixed_wf]|]. constructor; [exact (A 6 _ W6)|]. constructor; [apply St; apply B; reflexivity|].
  constructor; [split; [apply ptr20_ok|split; [apply ptr20_ok|exact I]]|constructor].
Qed.
(** Contract 9 destroys itself in the first transaction of block 1 and is paid in the second; the old word is there in the
    same block and in the next. *)
Definition old_word (acc : account) : list (list obs) * bytes :=
  let '(vss, m) := mrun (fun _ => []) (performed [SetAccount (ptr20 9) (Some acc); SetStorage (ptr20 9) acc [5] [7]])
    [(1, revival ++ [OExists 9; OCurrent 9 5]); (2, [OExists 9; OCurrent 9 5])] in
  (map (fun l => skipn (length l - 2) l) vss, match state_read_account_new m (ptr20 9) with Some c => state_read_storage_new m (ptr20 9) c [5] | None => [] end).
Lemma word_is_back : old_word contract9 = ([[VBool true; VNum 7]; [VBool true; VNum 7]], [7]).
Proof. vm_compute. reflexivity. Qed.
Lemma word_is_gone : old_word (mkAccount 1 3 kEmptyHash 1) = ([[VBool true; VNum 0]; [VBool true; VNum 0]], []).
Proof. vm_compute. reflexivity. Qed.

(** A state without storage serves blocks as the world it describes. *)
Definition world_said (code_of : bytes -> bytes) (calls : list call) : world :=
  mkWorld (fun a => acct_of code_of <$> accounts (said calls) a) (fun _ _ => 0) (fun _ _ => 0) (fun _ => false) (fun _ => false) ∅ [] ∅ 0 ∅ ∅.
Lemma prev_said calls : m_prev (performed calls) = ∅.
Proof.
  induction calls as [|c calls IH] using rev_ind; [reflexivity|]. rewrite performed_snoc. destruct c as [p [x|]|p x code|p x lo v]; exact IH.
Qed.
Lemma made_said calls : Forall made calls -> forall a c, accounts (said calls) a = Some c -> a_incarnation c = 0.
Proof.
  intros F a c E. cbn [accounts said] in E. destruct (last_of (account_at a) calls) as [x|] eqn:L; cbn [default from_option id] in E; [|discriminate]. subst x.
  apply last_in in L as (d & I & L). rewrite Forall_forall in F. specialize (F d I). destruct d as [p [x|]|p x code|p x lo va]; try discriminate; cbn [account_at] in L.
  - destruct (be_to_N p =? a); [|discriminate]. injection L as ->. exact F.
  - destruct (be_to_N p =? a); discriminate.
Qed.
Lemma arun_ext keccak cs cs' ops : (forall a, cs a = cs' a) -> forall y, arun keccak cs y ops = arun keccak cs' y ops.
Proof.
  intros E. assert (S1 : forall y o, astep keccak cs y o = astep keccak cs' y o).
  { intros [w sn] o. destruct o; cbn [astep]; try reflexivity. now rewrite E. }
  induction ops as [|o ops IH]; intros y; [reflexivity|]. cbn [arun]. rewrite S1. destruct (astep keccak cs' y o) as [[v y']|]; [|reflexivity]. now rewrite IH.
Qed.
Lemma serves keccak code_of calls room ops vs w' sn :
  Forall call_ok calls -> Forall made calls -> (forall a i l, slots (said calls) a i l = 0) -> codes_given keccak code_of calls -> room < 2 ^ 64 ->
  codes_ok keccak code_of ops -> N.of_nat (length ops) <= room ->
  arun keccak (fun _ => false) (world_said code_of calls, []) ops = Some (vs, (w', sn)) -> answers keccak (mem_reader (performed calls)) ops = vs.
Proof.
  intros F M Z G R (He & Hc & Hcodes) Hlen Ha. set (db := mem_reader (performed calls)).
  assert (Ra : forall a, read_account db a = accounts (said calls) a) by exact (accounts_said calls F).
  assert (Rs : forall a i l, read_storage db a i l = 0) by (intros a i l; rewrite <- (Z a i l); exact (slot_value calls F a i l)).
  assert (Db : db_ok keccak code_of db room).
  { split; [intros a k; apply Rs|]. split.
    - intros a c E. rewrite Ra in E. destruct (G a c E) as (G1 & G2). split; [exact G1|]. split; [|rewrite (made_said calls M a c E); exact R]. intros Hne. rewrite <- (G2 Hne). exact (code_said_ok calls (a_code_hash c)).
    - intros a. unfold db. cbn [previous_incarnation mem_reader]. rewrite prev_said, lookup_empty. exact R. }
  assert (St : starts code_of db (world_said code_of calls)).
  { unfold starts, world_said. cbn [w_acct w_current w_original w_gone w_born w_suicides w_logs w_touched w_refund w_addresses w_keys]. split; [intros a; now rewrite Ra|]. split; [|repeat split]. intros a k. destruct (read_account db a); [now rewrite Rs|reflexivity]. }
  assert (Ec : forall a, db_contract db a = false).
  { intros a. unfold db_contract. rewrite Ra. destruct (accounts (said calls) a) as [c|] eqn:E; [|reflexivity]. now rewrite (made_said calls M a c E). }
  rewrite (arun_ext keccak (fun _ => false) (db_contract db)) in Ha by (intros a; now rewrite Ec).
  destruct (refines keccak code_of db room Db He Hc _ _ _ _ St Hlen Hcodes Ha) as (x & n & E & _). unfold answers. now rewrite E.
Qed.

Lemma set_up_accounts a : accounts (said set_up) a = if 9 =? a then Some contract9 else if 6 =? a then Some (new_account 0 (Some 1000)) else None.
Proof.
  unfold set_up, said. cbn [accounts last_of account_at]. change (be_to_N (ptr20 9)) with 9. change (be_to_N (ptr20 2)) with 2. change (be_to_N (ptr20 6)) with 6.
  destruct (N.eqb_spec 9 a) as [<-|]; [reflexivity|]. destruct (N.eqb_spec 6 a) as [<-|]; [reflexivity|]. destruct (N.eqb_spec 2 a) as [<-|]; reflexivity.
Qed.
Lemma set_up_slots a i l : slots (said set_up) a i l = if (9 =? a) && (0 =? i) && (5 =? l) then 7 else 0.
Proof.
  unfold set_up, said. cbn [slots last_of slot_at]. change (be_to_N (ptr20 9)) with 9. change (a_incarnation contract9) with 0. change (WasmSpec.word [4]) with 4. change (WasmSpec.word [5]) with 5. change (WasmSpec.word []) with 0.
  change (WasmSpec.word (be_fixed 32 7)) with 7. destruct (9 =? a); [|reflexivity]. destruct (0 =? i); [|reflexivity]. cbn [andb]. destruct (N.eqb_spec 5 l) as [<-|]; [reflexivity|]. destruct (N.eqb_spec 4 l) as [<-|]; reflexivity.
Qed.
Lemma set_up_apart : no_hash_collision flip_hash (said set_up).
Proof.
  split.
  - intros a b. rewrite !set_up_accounts. destruct (N.eqb_spec 9 a) as [<-|]; [|destruct (N.eqb_spec 6 a) as [<-|]; [|congruence]]; (destruct (N.eqb_spec 9 b) as [<-|]; [|destruct (N.eqb_spec 6 b) as [<-|]; [|congruence]]); intros _ _ E; try reflexivity; vm_compute in E; discriminate E.
  - intros a acc l l' _. rewrite !set_up_slots. destruct (9 =? a); [|cbn [andb]; congruence]. destruct (0 =? a_incarnation acc); cbn [andb]; [|congruence]. destruct (N.eqb_spec 5 l) as [<-|]; [|congruence]. destruct (N.eqb_spec 5 l') as [<-|]; [|congruence]. reflexivity.
Qed.
Lemma set_up_case : Forall call_ok set_up /\ hash_32 flip_hash /\ no_hash_collision flip_hash (said set_up)
  /\ state_read_storage_new (performed set_up) (ptr20 9) contract9 [5] = [7] /\ state_read_storage_new (performed set_up) (ptr20 9) contract9 [4] = []
  /\ state_number_of_accounts (performed set_up) = 2%nat /\ state_storage_size (performed set_up) (ptr20 9) contract9 = 1%nat
  /\ state_read_code_new (performed set_up) kEmptyHash = [91; 0]
  /\ lists [9; 6] (fun a => accounts (said set_up) a <> None) /\ lists [5] (fun x => slots (said set_up) 9 0 x <> 0).
Proof.
  split; [exact set_up_ok|]. split; [exact flip_32|]. split; [exact set_up_apart|]. split; [vm_compute; reflexivity|]. split; [vm_compute; reflexivity|]. split; [vm_compute; reflexivity|]. split; [vm_compute; reflexivity|]. split; [vm_compute; reflexivity|]. split; split.
  - repeat constructor; rewrite ?elem_of_cons, elem_of_nil; intuition discriminate.
  - intros a. rewrite set_up_accounts. cbn [In]. destruct (N.eqb_spec 9 a); [split; [discriminate|now left]|]. destruct (N.eqb_spec 6 a); [split; [discriminate|right; now left]|]. split; [intros [?|[?|[]]]; congruence|congruence].
  - repeat constructor; rewrite elem_of_nil; auto.
  - intros a. rewrite set_up_slots. change (9 =? 9) with true; change (0 =? 0) with true; cbn [andb In]. destruct (5 =? a) eqn:E; [apply N.eqb_eq in E; split; [discriminate|now left]|]. apply N.eqb_neq in E. split; [intros [?|[]]; congruence|congruence].
Qed.

(** Two accounts, one with code, no storage. *)
Definition code9 : bytes := [91; 0].
Definition caller9 : account := mkAccount 1 3 (code_hash code9) 0.
Definition codes9 (h : bytes) : bytes := if bytes_eqb h (code_hash code9) then code9 else [].
Definition funded : list call := [SetAccount (ptr20 9) (Some caller9); SetCode (ptr20 9) caller9 code9; SetAccount (ptr20 6) (Some (new_account 0 (Some 1000)))].
Definition paying : list op := [OSubBalance 6 10; OAddBalance 9 10; OCreate 12; OSetStorage 12 5 7; OCode 9; OSuicide 9] ++ boundary [9] [6; 9] ++ [OAddBalance 9 1; OCurrent 9 5; OBalance 6; OBalance 9; OCreate 9; OCurrent 9 5; OCurrent 12 5].
Lemma funded_accounts a : accounts (said funded) a = if 6 =? a then Some (new_account 0 (Some 1000)) else if 9 =? a then Some caller9 else None.
Proof.
  unfold funded, said. cbn [accounts last_of account_at]. change (be_to_N (ptr20 9)) with 9. change (be_to_N (ptr20 6)) with 6.
  destruct (N.eqb_spec 6 a) as [<-|]; [reflexivity|]. destruct (N.eqb_spec 9 a) as [<-|]; reflexivity.
Qed.
Lemma funded_case : Forall call_ok funded /\ Forall made funded /\ (forall a i l, slots (said funded) a i l = 0) /\ codes_given code_hash codes9 funded /\ codes_ok code_hash codes9 paying
  /\ exists y, arun code_hash (fun _ => false) (world_said codes9 funded, []) paying
     = Some ([VUnit; VUnit; VUnit; VUnit; VBytes [91; 0]; VUnit] ++ repeat VUnit 4 ++ [VUnit; VNum 0; VNum 990; VNum 1; VUnit; VNum 0; VNum 7], y).
Proof.
  assert (W : wf_account caller9) by (split; [reflexivity|]; split; [reflexivity|]; split; [split; [reflexivity|apply (code_hash_32 code9)]|reflexivity]).
  split; [|split; [|split; [|split; [|split]]]].
  - unfold funded. constructor; [split; [apply ptr20_ok|split; [apply ptr20_ok|exact W]]|]. constructor; [exact W|]. constructor; [split; [apply ptr20_ok|split; [apply ptr20_ok|apply contract9_wf; reflexivity]]|]. constructor.
  - repeat constructor.
  - reflexivity.
  - intros a c. rewrite funded_accounts. destruct (N.eqb_spec 6 a) as [<-|]; [|destruct (N.eqb_spec 9 a) as [<-|]; [|discriminate]]; intros [= <-].
    + split; [vm_compute; reflexivity|]. intros E. exfalso. apply E. reflexivity.
    + split; [vm_compute; reflexivity|]. intros _. vm_compute. reflexivity.
  - split; [reflexivity|]. split; [vm_compute; reflexivity|]. intros c H. vm_compute in H. destruct H.
  - eexists. vm_compute. reflexivity.
Qed.

(** A configuration: the forks of a test network, one of them moved, and the DAO fork. *)
Definition settings : list setting := [SetFork 1 0; SetFork 8 5; SetFork 9 20; SetMuirGlacier 7; SetDao 3; SetFork 8 10].
Lemma settings_case : Forall known_fork settings /\ map (revision (configured 77 settings)) [0; 9; 10; 19; 20; 1000] = [1; 1; 8; 8; 9; 9]
  /\ cfg_muir_glacier (configured 77 settings) = Some 7 /\ cfg_dao_block (configured 77 settings) = Some 3.
Proof. split; [repeat constructor; cbn; lia|]. vm_compute. auto. Qed.
(** A transaction, a block and a transaction with a byte too many. *)
Definition block12 : BlockModel.block := mkBlock sample_header [sample_tx; sample_legacy_tx] [sample_header].
Lemma objects_case : wf_tx sample_tx /\ representable sample_tx /\ small_tx sample_tx /\ wf_block block12 /\ small_item (block_item block12)
  /\ new_block (RLP (block_item block12)) = Some block12 /\ new_transaction (encode_tx sample_tx ++ [0]) = None.
Proof.
  pose proof sample_tx_ok as (W & R & S). pose proof sample_legacy_ok as (W' & R' & S'). pose proof sample_header_ok as [Wh Sh].
  split; [exact W|]. split; [exact R|]. split; [exact S|]. split; [split; [exact Wh|split; repeat constructor; auto]|]. split; [reflexivity|]. split; vm_compute; reflexivity.
Qed.
