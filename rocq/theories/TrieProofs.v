(** The trie builder: paths, nodes and their encodings. *)
From Verif Require Import Base BaseFacts RlpSpec RlpModel RlpProofs UtilModel UtilProofs TrieModel TrieSpec.

(** ** Tries *)
Section Induction.
  Variable P : mpt -> Prop.
  Hypothesis HL : forall p v, P (Leaf p v).
  Hypothesis HE : forall p c, P c -> P (Ext p c).
  Hypothesis HB : forall cs, Forall (fun o => match o with Some c => P c | None => True end) cs -> P (Branch cs).
  Fixpoint mpt_ind' (t : mpt) : P t :=
    match t with
    | Leaf p v => HL p v
    | Ext p c => HE p c (mpt_ind' c)
    | Branch cs => HB cs ((fix go (l : list (option mpt)) : Forall (fun o => match o with Some c => P c | None => True end) l :=
        match l with
        | [] => Forall_nil _
        | Some c :: l' => Forall_cons (Some c) (mpt_ind' c : (fun o => match o with Some c => P c | None => True end) (Some c)) (go l')
        | None :: l' => Forall_cons None (I : (fun o => match o with Some c => P c | None => True end) None) (go l')
        end) cs)
    end.
End Induction.

Lemma get_branch cs b k : get (Branch cs) (b :: k) = match nth_error cs (N.to_nat b) with Some (Some c) => get c k | _ => None end.
Proof.
  cbn [get]. generalize (N.to_nat b). induction cs as [|o cs IH]; intros n; [now destruct n|]. destruct n; [reflexivity|]. apply IH.
Qed.
Lemma canonical_branch cs : canonical (Branch cs) <-> length cs = 16%nat /\ (2 <= length (used cs))%nat /\ forall c, In (Some c) cs -> canonical c.
Proof.
  cbn [canonical]. set (all := fix all l := match l with [] => True | None :: l' => all l' | Some c :: l' => canonical c /\ all l' end).
  assert (G : forall l, all l <-> forall c, In (Some c) l -> canonical c).
  { induction l as [|[c|] l IH]; cbn; [split; [intros _ c []|auto]| |].
    - rewrite IH. split; [intros (A & B) x [E|H]; [injection E as <-; exact A|now apply B]|intros H; split; [apply H; now left|intros x Hx; apply H; now right]].
    - rewrite IH. split; [intros B x [E|H]; [discriminate|now apply B]|intros H x Hx; apply H; now right]. }
  now rewrite G.
Qed.

Lemma strip_spec p k r : strip p k = Some r <-> k = p ++ r.
Proof.
  revert k. induction p as [|a p IH]; intros k; cbn; [split; [now intros [= ->]|now intros ->]|]. destruct k as [|b k]; [split; discriminate|].
  destruct (N.eqb_spec a b) as [->|Hn]; [rewrite IH; split; [now intros ->|now intros [= ->]]|]. split; [discriminate|intros [= -> _]; congruence].
Qed.
Lemma get_leaf p v k w : get (Leaf p v) k = Some w <-> k = p /\ w = v.
Proof.
  cbn. destruct (strip p k) as [[|b r]|] eqn:E.
  - apply strip_spec in E. rewrite app_nil_r in E. split; [intros [= <-]; auto|intros (_ & ->); reflexivity].
  - apply strip_spec in E. split; [discriminate|]. intros (-> & _). apply (f_equal (@length N)) in E. rewrite app_length in E. cbn in E. lia.
  - split; [discriminate|]. intros (-> & _). assert (X : strip p p = Some []) by (apply strip_spec; now rewrite app_nil_r). congruence.
Qed.
Lemma get_ext p c k w : get (Ext p c) k = Some w <-> exists r, k = p ++ r /\ get c r = Some w.
Proof.
  cbn. destruct (strip p k) as [r|] eqn:E.
  - apply strip_spec in E. split; [eauto|]. intros (r' & Hr & G). subst k. apply app_inv_head in Hr. now subst.
  - split; [discriminate|]. intros (r & Hr & _). apply strip_spec in Hr. congruence.
Qed.

(** ** Paths *)
Definition nib (l : list N) : Prop := Forall (fun x => x < 16) l.
Lemma nib_app a b : nib (a ++ b) <-> nib a /\ nib b. Proof. apply Forall_app. Qed.
Lemma nib_firstn n l : nib l -> nib (firstn n l). Proof. intros H. rewrite <- (firstn_skipn n l) in H. now apply nib_app in H as (? & _). Qed.
Lemma nib_skipn n l : nib l -> nib (skipn n l). Proof. intros H. rewrite <- (firstn_skipn n l) in H. now apply nib_app in H as (_ & ?). Qed.
Lemma nib_nth l d : nib l -> (d < length l)%nat -> nth d l 0 < 16.
Proof. intros H Hd. unfold nib in H. rewrite Forall_forall in H. apply H, nth_In, Hd. Qed.
Lemma pack_pairs_pack k : forall l, (length l <= k)%nat -> nib l -> pack_pairs l = pack l.
Proof.
  induction k as [|k IH]; intros l Hl H; [destruct l; [reflexivity|cbn in Hl; lia]|]. destruct l as [|a [|b t]]; [reflexivity|reflexivity|].
  apply Forall_cons_iff in H as (Ha & H). apply Forall_cons_iff in H as (Hb & H). cbn [pack_pairs pack]. rewrite N.mod_small by lia. f_equal; [lia|]. apply IH; [cbn in Hl; lia|exact H].
Qed.
Lemma lor_flag f x : f = 0x10 \/ f = 0x30 -> x < 16 -> N.lor f x = f + x.
Proof.
  intros Hf Hx. assert (A : forall n, In n (map N.of_nat (seq 0 16)) -> N.lor 0x10 n = 0x10 + n /\ N.lor 0x30 n = 0x30 + n).
  { cbn [map seq]. intros n Hn. repeat (destruct Hn as [<-|Hn]; [split; reflexivity|]). destruct Hn. }
  destruct (A x) as (A1 & A2); [|destruct Hf; subst f; assumption]. rewrite <- (N2Nat.id x). apply in_map, in_seq. lia.
Qed.
Lemma encode_path_HP p t : nib p -> encode_path p t = HP p t.
Proof.
  intros H. unfold encode_path, HP. rewrite <- Nat.negb_even. destruct (Nat.even (length p)) eqn:E; cbn [negb].
  - cbn [pack]. rewrite (pack_pairs_pack (length p)) by auto. destruct t; reflexivity.
  - destruct p as [|a p]; [discriminate|]. apply Forall_cons_iff in H as (Ha & H). cbn [hd tl]. rewrite (pack_pairs_pack (length p)) by auto.
    destruct t; cbn [pack]; (rewrite lor_flag by auto); f_equal; lia.
Qed.
Lemma pack_length k : forall l, (length l <= k)%nat -> blen (pack l) <= blen l.
Proof.
  induction k as [|k IH]; intros l Hl; [destruct l; [cbn; lia|cbn in Hl; lia]|]. destruct l as [|a [|b t]]; [cbn; lia|cbn [pack]; rewrite blen_nil, blen_cons; lia|]. cbn [pack]. rewrite !blen_cons. specialize (IH t ltac:(cbn in Hl; lia)). lia.
Qed.
Lemma HP_length p t : blen (HP p t) <= blen p + 2.
Proof.
  unfold HP. destruct (Nat.even (length p)).
  - etransitivity; [eapply pack_length, Nat.le_refl|]. rewrite !blen_cons. lia.
  - etransitivity; [eapply pack_length, Nat.le_refl|]. rewrite !blen_cons. lia.
Qed.

(** ** References *)
Section Refs.
  Variable keccak : bytes -> bytes.
  Hypothesis Hk : forall b, length (keccak b) = 32%nat.
  Notation node_item := (node_item keccak).
  Notation child := (child keccak).
  Definition ref (t : mpt) : bytes := RLP (child (node_item t)).

  Lemma rlp_hash h : length h = 32%nat -> rlp_str h = 0xA0 :: h.
  Proof. intros H. unfold rlp_str. destruct h as [|a [|b t]]; [discriminate|discriminate|]. unfold blen. rewrite H. reflexivity. Qed.
  Lemma node_ref_child x : node_ref keccak (RLP x) = RLP (child x).
  Proof. unfold node_ref, TrieSpec.child. destruct (_ <? _); [reflexivity|]. cbn [RLP]. now rewrite rlp_hash by apply Hk. Qed.
  Lemma ref_cases t : (blen (RLP (node_item t)) < 32 /\ ref t = RLP (node_item t)) \/ (32 <= blen (RLP (node_item t)) /\ ref t = 0xA0 :: keccak (RLP (node_item t))).
  Proof. unfold ref, TrieSpec.child. destruct (N.ltb_spec (blen (RLP (node_item t))) 32); [left; auto|right]. cbn [RLP]. now rewrite rlp_hash by apply Hk. Qed.
  Lemma ref_length t : blen (ref t) <= 33.
  Proof. destruct (ref_cases t) as [(H & ->)|(H & ->)]; [lia|]. rewrite blen_cons. unfold blen. rewrite Hk. lia. Qed.
  Lemma ref_root t : (if blen (ref t) =? 33 then skipn 1 (ref t) else keccak (ref t)) = trie_root keccak t.
  Proof.
    unfold trie_root. destruct (ref_cases t) as [(H & ->)|(H & ->)].
    - destruct (N.eqb_spec (blen (RLP (node_item t))) 33); [lia|reflexivity].
    - rewrite blen_cons. unfold blen. rewrite Hk. reflexivity.
  Qed.
  Lemma rlp_str_len s : blen s < 2 ^ 64 -> blen (rlp_str s) <= blen s + 9.
  Proof.
    intros H. rewrite <- length_bytes_spec by exact H. unfold length_bytes, length_of_length. destruct (needs_header s); [|lia]. destruct (_ <? _); lia.
  Qed.
  Lemma leaf_rlp p v : nib p -> blen p < 2 ^ 63 -> blen v < 2 ^ 62 -> node_ref keccak (leaf_node_rlp p v) = ref (Leaf p v).
  Proof.
    intros Hp Lp Lv. unfold ref. rewrite <- node_ref_child. f_equal. unfold leaf_node_rlp. cbn [TrieSpec.node_item RLP map concat]. rewrite encode_path_HP by exact Hp.
    pose proof (HP_length p true) as L. rewrite !length_bytes_spec by lia. rewrite !encode_bytes_spec by lia.
    pose proof (rlp_str_len (HP p true) ltac:(lia)) as L1. pose proof (rlp_str_len v ltac:(lia)) as L2.
    rewrite N.mod_small by lia. rewrite encode_header_hdr by (cbn [h_payload_length]; lia). rewrite app_nil_r. unfold rlp_lst, hdr_of. cbn [h_list h_payload_length]. rewrite blen_app. reflexivity.
  Qed.
  Lemma ext_rlp p t : nib p -> blen p < 2 ^ 63 -> node_ref keccak (extension_node_rlp p (ref t)) = ref (Ext p t).
  Proof.
    intros Hp Lp. unfold ref at 2. rewrite <- node_ref_child. f_equal. unfold extension_node_rlp. cbn [TrieSpec.node_item RLP map concat]. fold (ref t). rewrite encode_path_HP by exact Hp.
    pose proof (HP_length p false) as L. rewrite !length_bytes_spec by lia. rewrite !encode_bytes_spec by lia.
    pose proof (rlp_str_len (HP p false) ltac:(lia)) as L1. pose proof (ref_length t) as L2.
    rewrite N.mod_small by lia. rewrite encode_header_hdr by (cbn [h_payload_length]; lia). rewrite app_nil_r. unfold rlp_lst, hdr_of. cbn [h_list h_payload_length]. rewrite blen_app. reflexivity.
  Qed.

  (** The sixteen slots of a branch *)
  Fixpoint fill (mask : N) (ds : list N) (ns : list mpt) : list (option mpt) :=
    match ds with
    | [] => []
    | d :: ds' => if N.testbit mask d then match ns with n :: ns' => Some n :: fill mask ds' ns' | [] => None :: fill mask ds' [] end else None :: fill mask ds' ns
    end.
  Lemma fill_length m ds ns : length (fill m ds ns) = length ds.
  Proof. revert ns. induction ds as [|d ds IH]; intros ns; [reflexivity|]. cbn. destruct (N.testbit m d); [destruct ns|]; cbn; now rewrite IH. Qed.
  Lemma slots_fill m ds ns : length ns = length (filter (N.testbit m) ds) -> slots m ds (map ref ns) = Some (combine ds (map (option_map ref) (fill m ds ns))).
  Proof.
    revert ns. induction ds as [|d ds IH]; intros ns H; [reflexivity|]. cbn [slots fill filter] in *. destruct (N.testbit m d).
    - destruct ns as [|n ns]; [discriminate|]. cbn [map]. rewrite IH by (cbn in H; congruence). reflexivity.
    - rewrite IH by exact H. reflexivity.
  Qed.
  Lemma used_fill m ds ns : length ns = length (filter (N.testbit m) ds) -> used (fill m ds ns) = ns.
  Proof.
    revert ns. induction ds as [|d ds IH]; intros ns H; cbn [fill filter] in *; [destruct ns; [reflexivity|discriminate]|]. destruct (N.testbit m d).
    - destruct ns as [|n ns]; [discriminate|]. unfold used. cbn. fold (used (fill m ds ns)). rewrite IH by (cbn in H; congruence). reflexivity.
    - unfold used. cbn. fold (used (fill m ds ns)). now apply IH.
  Qed.
  Lemma fill_nth m ds ns i d : length ns = length (filter (N.testbit m) ds) -> nth_error ds i = Some d ->
    (N.testbit m d = false -> nth_error (fill m ds ns) i = Some None) /\ (N.testbit m d = true -> exists n, nth_error (fill m ds ns) i = Some (Some n) /\ In (d, n) (combine (filter (N.testbit m) ds) ns)).
  Proof.
    revert ns i. induction ds as [|e ds IH]; intros ns i H Hi; [now destruct i|]. cbn [fill filter] in *. destruct i as [|i].
    - injection Hi as ->. destruct (N.testbit m d); [|split; [reflexivity|discriminate]]. destruct ns as [|n ns]; [discriminate|]. split; [discriminate|]. intros _. exists n. split; [reflexivity|now left].
    - cbn [nth_error] in Hi. destruct (N.testbit m e).
      + destruct ns as [|n ns]; [discriminate|]. destruct (IH ns i ltac:(cbn in H; congruence) Hi) as (A & B). split; [exact A|]. intros E. destruct (B E) as (x & X & Y). exists x. split; [exact X|now right].
      + destruct (IH ns i H Hi) as (A & B). split; [exact A|exact B].
  Qed.
  Lemma fold_len sl acc : fold_left (fun n (e : N * option bytes) => n + match snd e with Some c => blen c | None => 1 end) sl acc
    = acc + blen (concat (map (fun e => match snd e with Some c => c | None => [0x80] end) sl)).
  Proof.
    revert acc. induction sl as [|[d [c|]] sl IH]; intros acc; cbn [fold_left map concat snd]; [unfold blen; cbn [length]; lia| |]; rewrite IH; unfold blen; rewrite app_length, ?Nnat.Nat2N.inj_add; cbn [length]; lia.
  Qed.
  Lemma slots_concat (f : option mpt -> bytes) (ds : list N) cs : length cs = length ds -> (forall o, f o = match option_map ref o with Some c => c | None => [0x80] end) ->
    concat (map (fun e : N * option bytes => match snd e with Some c => c | None => [0x80] end) (combine ds (map (option_map ref) cs))) = concat (map f cs).
  Proof.
    intros H Hf. revert ds H. induction cs as [|o cs IH]; intros ds H; [now destruct ds|]. destruct ds as [|d ds]; [discriminate|]. cbn. rewrite <- Hf. f_equal. apply IH. cbn in H; congruence.
  Qed.
  Lemma small_concat (f : option mpt -> bytes) cs : (forall o, blen (f o) <= 33) -> blen (concat (map f cs)) <= 33 * N.of_nat (length cs).
  Proof. intros H. induction cs as [|o cs IH]; [unfold blen; cbn [map concat length]; lia|]. cbn [map concat length]. rewrite blen_app. specialize (H o). lia. Qed.
  Lemma branch_rlp g h ns rest : length ns = length (digits g) ->
    branch_ref keccak g h (rev (map ref ns) ++ rest)
    = Some (ref (Branch (fill g digits16 ns)) :: rest,
            concat (map (fun e : N * option mpt => match snd e with Some c => if N.testbit h (fst e) then [ref c] else [] | None => [] end) (combine digits16 (fill g digits16 ns)))).
  Proof.
    intros H. unfold branch_ref. rewrite app_length, rev_length, map_length. destruct (Nat.ltb_spec (length ns + length rest) (length (digits g))) as [L|_]; [lia|].
    rewrite <- H. replace (firstn (length ns) (rev (map ref ns) ++ rest)) with (rev (map ref ns)) by (rewrite firstn_app_exact; [reflexivity|now rewrite rev_length, map_length]).
    rewrite skipn_app_exact by now rewrite rev_length, map_length. rewrite rev_involutive, slots_fill by exact H. rewrite fold_len.
    set (cs := fill g digits16 ns). assert (Lc : length cs = 16%nat) by (unfold cs; now rewrite fill_length).
    set (f := fun o : option mpt => match o with Some c => ref c | None => [0x80] end).
    rewrite (slots_concat f) by (rewrite ?Lc; try reflexivity; intros [c|]; reflexivity).
    assert (Lf : forall o, blen (f o) <= 33) by (intros [c|]; cbn; [apply ref_length|rewrite blen_cons, blen_nil; lia]). pose proof (small_concat f cs Lf) as Lb. rewrite Lc in Lb.
    f_equal. f_equal.
    - f_equal. unfold ref at 1. rewrite <- node_ref_child. f_equal. cbn [TrieSpec.node_item RLP]. rewrite map_app, concat_app, map_map. cbn [map concat app].
      replace (concat (map (fun x => RLP match x with Some c => child (node_item c) | None => Str [] end) cs)) with (concat (map f cs)) by (f_equal; apply map_ext; intros [c|]; reflexivity).
      change (RLP (Str [])) with [128]. rewrite app_nil_r. unfold rlp_lst. rewrite blen_app, blen_cons, blen_nil. rewrite N.mod_small by lia. rewrite encode_header_hdr by (cbn [h_payload_length]; lia). unfold hdr_of. cbn [h_list h_payload_length].
      replace (1 + blen (concat (map f cs))) with (blen (concat (map f cs)) + (1 + 0)) by lia. reflexivity.
    - clear - Lc. assert (G : forall ds (cs : list (option mpt)), concat (map (fun e : N * option bytes => match snd e with Some c => if N.testbit h (fst e) then [c] else [] | None => [] end) (combine ds (map (option_map ref) cs)))
        = concat (map (fun e : N * option mpt => match snd e with Some c => if N.testbit h (fst e) then [ref c] else [] | None => [] end) (combine ds cs))).
      { clear. intros ds. induction ds as [|d ds IH]; intros [|o cs]; [reflexivity|reflexivity|reflexivity|]. cbn. rewrite IH. destruct o; reflexivity. }
      apply G.
  Qed.
End Refs.
