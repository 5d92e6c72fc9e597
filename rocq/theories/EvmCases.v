(** Concrete cases for the theorems about message calls, refunds and block hashes. *)
From stdpp Require Import gmap.
From Coq Require Import ZArith.
From Verif Require Import Base BaseFacts RlpModel TypesModel TxModel BlockModel ChainModel StateModel EvmModel EvmSpec EvmLemmas RefundSpec BlockHashModel BlockHashSpec.

(** 100 has 1000 wei, 200 is a contract with 50 wei. *)
Definition e_hash (b : bytes) : bytes := zeros 29 ++ [7; blen b; hd 0 b].
Definition e_db : db_reader :=
  mkDb (fun a => if a =? 100 then Some (mkAccount 3 1000 kEmptyHash 0) else if a =? 200 then Some (mkAccount 1 50 (e_hash [1]) 1) else None)
       (fun h => if bytes_eqb h (e_hash [1]) then [1] else []) (fun a i k => if (a =? 200) && (i =? 1) && (k =? 5) then 7 else 0) (fun _ => 0).
(** Code [1] writes slot 5, sends 20 wei to 300 and, depending on the outcome, succeeds; code [2] writes and fails; other code
    returns a new contract. *)
Definition e_interp (m : message) (code : bytes) : prog :=
  if bytes_eqb code [1] then
    PSetStorage (m_destination m) 5 9 (fun _ =>
      if m_depth m <? 1024 then
        PCall (mkMsg KCall false (m_depth m + 1) (m_gas m / 2) 300 (m_destination m) [] 20 0) (fun r =>
          PDone (mkRes (r_status r) (r_gas r) [] 0))
      else PDone (mkRes INVALID_INSTRUCTION 0 [] 0))
  else if bytes_eqb code [2] then PSetStorage (m_destination m) 5 1 (fun _ => PSelfdestruct (m_destination m) (m_destination m + 1) (PDone (mkRes INVALID_INSTRUCTION 0 [] 0)))
  else PDone (mkRes SUCCESS (m_gas m) [1] 0).
Lemma e_lawful : lawful true e_interp.
Proof.
  intros m code Hg Hd. unfold e_interp. destruct (bytes_eqb code [1]).
  - cbn [contract]. split; [reflexivity|]. intros _. destruct (N.ltb_spec (m_depth m) 1024); [|cbn; lia].
    assert (Hq : (0 <= m_gas m / 2 <= m_gas m)%Z) by (split; [apply Z.div_pos; lia|apply Z.div_le_upper_bound; lia]).
    cbn [contract m_kind m_sender m_depth m_gas]. split; [reflexivity|]. split; [reflexivity|]. split; [lia|]. split; [apply Hq|]. intros r Hr. cbn [contract r_gas]. lia.
  - destruct (bytes_eqb code [2]); cbn [contract r_gas]; [split; [reflexivity|]; intros _; split; [reflexivity|]; split; [intros _ E; lia|lia]|lia].
Qed.
Lemma e_fresh : forall a k, read_storage e_db a 0 k = 0.
Proof. intros a k. cbn. now rewrite andb_false_r. Qed.
Definition e_call := host_call e_hash e_db EVMC_BERLIN (fun _ _ _ => 100) (fun _ i => Some i) (fun _ => zeros 32) e_interp.
Definition e_msg (to value : N) : message := mkMsg KCall false 0 100000 to 100 [] value 0.
Lemma e_total : total (balance_of e_db ibs_new) 1050.
Proof.
  exists [100; 200]. split; [repeat constructor; cbn; intuition discriminate|]. split; [|reflexivity].
  intros a Ha. unfold balance_of, get_balance, get_object. cbn. destruct (N.eqb_spec a 100) as [->|]; [exfalso; apply Ha; now left|].
  destruct (N.eqb_spec a 200) as [->|]; [exfalso; apply Ha; right; now left|reflexivity].
Qed.
(** a call that runs code which calls on: 100 -> 200 with 30 wei, 200 -> 300 with 20 wei *)
Lemma e_nested : match e_call 1025 [] (e_msg 200 30) ibs_new with
  | Returns r s => r = mkRes SUCCESS 50000 [] 0 /\ map (balance_of e_db s) [100; 200; 300] = [970; 60; 20]
      /\ fst (get_current_storage e_db s 200 5) = 9
  | _ => False end.
Proof. vm_compute. repeat split. Qed.
(** the nested call overdraws: everything is undone, and the gas is consumed *)
Definition e_db2 : db_reader := mkDb (fun a => if a =? 100 then Some (mkAccount 3 1000 kEmptyHash 0) else if a =? 200 then Some (mkAccount 1 0 (e_hash [1]) 1) else None)
       (read_code e_db) (read_storage e_db) (fun _ => 0).
Definition e_call2 := host_call e_hash e_db2 EVMC_BERLIN (fun _ _ _ => 100) (fun _ i => Some i) (fun _ => zeros 32) e_interp.
Lemma e_overdraw : match e_call2 1025 [] (e_msg 200 19) ibs_new with
  | Returns r s => r = mkRes INSUFFICIENT_BALANCE 0 [] 0 /\ map (balance_of e_db2 s) [100; 200; 300] = [1000; 0; 0]
      /\ fst (get_current_storage e_db2 s 200 5) = 7
  | _ => False end.
Proof. vm_compute. repeat split. Qed.
(** creations: one that succeeds and one that fails *)
Definition e_create (code : bytes) : message := mkMsg KCreate false 0 100000 0 100 code 40 0.
Lemma e_created : match e_call 1025 [] (e_create [9]) ibs_new with
  | Returns r s => r = mkRes SUCCESS (100000 - 200) [] (new_address e_hash e_db (e_create [9]) ibs_new) /\ balance_of e_db s 100 = 960
      /\ balance_of e_db s (r_create_address r) = 40 /\ nonce_of e_db s 100 = 4 /\ code_hash_of e_db s (r_create_address r) = e_hash [1]
  | _ => False end.
Proof. vm_compute. repeat split. Qed.
Lemma e_create_failed : match e_call 1025 [] (e_create [2]) ibs_new with
  | Returns r s => r_status r = INVALID_INSTRUCTION /\ balance_of e_db s 100 = 1000 /\ nonce_of e_db s 100 = 4
      /\ existing e_db s (new_address e_hash e_db (e_create [2]) ibs_new) = false
  | _ => False end.
Proof. vm_compute. repeat split. Qed.

(** Refunds: slot 5 of account 200 holds 7; slot 6 holds 0. *)
Definition e_script : act :=
  Frame true [Write 200 5 0; Frame false [Write 200 5 7; Write 200 6 1]; Write 200 6 1; Frame true [Write 200 6 0; Write 200 5 8]; Write 200 5 7].
Lemma e_script_case : (forall a, In a (writers e_script) -> existing e_db ibs_new a = true) /\ refund ibs_new = 0
  /\ (forall a k, fst (get_current_storage e_db ibs_new a k) = fst (get_original_storage e_db ibs_new a k)) /\ 20000 * writes e_script < 2 ^ 64.
Proof.
  split; [|split; [reflexivity|split; [|reflexivity]]].
  - intros a Ha. assert (E : a = 200) by (cbn in Ha; intuition). now subst a.
  - intros a k. unfold get_current_storage, get_original_storage. rewrite !storage_value. destruct (liveb e_db ibs_new a); reflexivity.
Qed.
Lemma e_refunds : map (fun rev => refund (fst (perform e_db rev e_script (ibs_new, []))))
  [EVMC_FRONTIER; EVMC_CONSTANTINOPLE; EVMC_PETERSBURG; EVMC_ISTANBUL; EVMC_BERLIN; EVMC_LONDON] = [30000; 24600; 30000; 23400; 22700; 22700].
Proof. vm_compute. reflexivity. Qed.

(** A chain of 300 headers. *)
Definition c_header (i : N) : block_header :=
  mkHdr (be_fixed 32 i) [] [] [] [] [] [] 0 i 0 0 0 [] [] [] None.
Definition c_hash (h : block_header) : bytes := be_fixed 32 (hd_number h + 1).
Definition c_read (n : N) (h : bytes) : option block_header := if bytes_eqb h (be_fixed 32 (n + 1)) then Some (c_header n) else None.
Lemma c_linked : linked c_hash c_read c_header 300.
Proof.
  split; [reflexivity|]. split; [reflexivity|]. intros i _. unfold c_read, c_hash. cbn [hd_number c_header].
  assert (E : bytes_eqb (be_fixed 32 (i + 1)) (be_fixed 32 (i + 1)) = true) by now apply bytes_eqb_eq. now rewrite E.
Qed.
