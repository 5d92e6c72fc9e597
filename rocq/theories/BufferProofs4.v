(** Proofs about db::Buffer: change sets. *)
From stdpp Require Import gmap sorting.
From Verif Require Import Base BaseFacts RlpModel TypesModel TypesSpec TypesProofs UtilModel UtilProofs DbTable DbModel DbSpec DbProofs BufferModel BufferSpec BufferProofs BufferProofs2 BufferProofs3.

(** ** Widths *)
Lemma buf_empty_wf : wf_buffer buf_empty.
Proof. constructor; cbn [buf_empty b_accounts b_storage b_incarnations b_prefix_code b_acc_changes b_st_changes]; intros; rewrite lookup_empty in *; discriminate. Qed.
Lemma step_wf b o : wf_buffer b -> b_block b < 2 ^ 64 -> fits_op o -> wf_buffer (buf_step b o) /\ b_block (buf_step b o) < 2 ^ 64.
Proof.
  intros W Hn F. destruct o as [n|a i c|a inc h code|a inc l i c]; cbn [buf_step fits_op] in *.
  - split; [|exact F]. destruct W. constructor; assumption.
  - destruct F as (Fa & Fi & Fc). unfold update_account. destruct (_ && _ && _); [split; assumption|].
    assert (WC : forall n m, <[b_block b:=<[a:=match i with Some i0 => encode_for_storage i0 (negb match c with Some _ => false | None => true end) | None => [] end]> (default ∅ (b_acc_changes b !! b_block b))]> (b_acc_changes b) !! n = Some m ->
       n < 2 ^ 64 /\ (forall x v, m !! x = Some v -> x < 2 ^ 160)).
    { intros n m E. destruct (N.eq_dec n (b_block b)) as [ -> |Nn].
      - rewrite lookup_insert in E. injection E as <-. split; [exact Hn|]. intros x v Ex. destruct (N.eq_dec x a) as [ -> |Nx]; [exact Fa|]. rewrite lookup_insert_ne in Ex by congruence.
        destruct (b_acc_changes b !! b_block b) as [m|] eqn:Em; cbn in Ex; [|now rewrite lookup_empty in Ex]. apply (wb_acc_changes b W) in Em as (_ & Em). now apply Em in Ex.
      - rewrite lookup_insert_ne in E by congruence. now apply (wb_acc_changes b W) in E. }
    destruct (opt_account_eqb c i); (split; [|exact Hn]).
    + destruct W. constructor; cbn [b_accounts b_storage b_incarnations b_prefix_code b_acc_changes b_st_changes]; try assumption; exact WC.
    + constructor; cbn [b_accounts b_storage b_incarnations b_prefix_code b_acc_changes b_st_changes]; try apply W; [| |exact WC].
      * intros x y E. destruct (N.eq_dec x a) as [ -> |Nx]; [|rewrite lookup_insert_ne in E by congruence; now apply (wb_accounts b W) in E]. rewrite lookup_insert in E. injection E as <-. split; [exact Fa|]. destruct c; auto.
      * intros x j E. destruct i as [i|]; [|now apply (wb_inc b W) in E]. destruct (_ && _); [|now apply (wb_inc b W) in E]. destruct (N.eq_dec x a) as [ -> |Nx]; [|rewrite lookup_insert_ne in E by congruence; now apply (wb_inc b W) in E].
        rewrite lookup_insert in E. injection E as <-. split; [exact Fa|]. destruct (Fi i eq_refl) as (_ & _ & _ & X). exact X.
  - destruct F as (Fa & Fi). split; [|exact Hn]. constructor; cbn [update_account_code b_accounts b_storage b_incarnations b_prefix_code b_acc_changes b_st_changes]; try apply W.
    intros x j h' E. destruct (decide ((a, inc) = (x, j))) as [Ek|Nk]; [injection Ek as <- <-; auto|]. rewrite lookup_insert_ne in E by congruence. now apply (wb_prefix b W) in E.
  - destruct F as (Fa & Fi & Fl & _ & Fc). unfold update_storage. destruct (c =? i); [split; assumption|]. split; [|exact Hn]. constructor; cbn [b_accounts b_storage b_incarnations b_prefix_code b_acc_changes b_st_changes]; try apply W.
    + intros x j k v E. destruct (decide ((a, inc, l) = (x, j, k))) as [Ek|Nk]; [|rewrite lookup_insert_ne in E by congruence; now apply (wb_storage b W) in E]. rewrite Ek, lookup_insert in E. injection E as <-. apply pair_equal_spec in Ek as (Ek & <-). apply pair_equal_spec in Ek as (<- & <-). auto.
    + intros n m E. destruct (N.eq_dec n (b_block b)) as [ -> |Nn]; [|rewrite lookup_insert_ne in E by congruence; now apply (wb_st_changes b W) in E]. rewrite lookup_insert in E. apply (inj Some) in E. subst m. split; [exact Hn|].
      intros x j k v E. destruct (decide ((a, inc, l) = (x, j, k))) as [Ek|Nk]; [apply pair_equal_spec in Ek as (Ek & <-); apply pair_equal_spec in Ek as (<- & <-); auto|]. rewrite lookup_insert_ne in E by congruence.
      destruct (b_st_changes b !! b_block b) as [m|] eqn:Em; cbn in E; [|now rewrite lookup_empty in E]. apply (wb_st_changes b W) in Em as (_ & Em). now apply Em in E.
Qed.
Lemma run_wf ops : forall b, wf_buffer b -> b_block b < 2 ^ 64 -> Forall fits_op ops -> wf_buffer (buf_run b ops) /\ b_block (buf_run b ops) < 2 ^ 64.
Proof.
  induction ops as [|o ops IH]; intros b W Hn F; [auto|]. apply Forall_cons_iff in F as (Fo & F). destruct (step_wf b o W Hn Fo) as (W' & Hn'). now apply IH.
Qed.

(** ** Entries, over every sequence of updates of a block *)
Fixpoint st_entry (ops : list buf_op) (k : N * N * N) (before : option bytes) : option bytes :=
  match ops with
  | [] => before
  | OStorage a i l x y :: r => st_entry r k (if bool_decide ((a, i, l) = k) && negb (y =? x) then Some (zeroless_view (word x)) else before)
  | _ :: r => st_entry r k before
  end.
Fixpoint acc_entry (ops : list buf_op) (a : N) (changed : bool) (before : option bytes) : option bytes :=
  match ops with
  | [] => before
  | OStorage x _ _ i c :: r => acc_entry r a (changed || ((x =? a) && negb (c =? i))) before
  | OAccount x i c :: r => acc_entry r a changed (if (x =? a) && negb (opt_account_eqb c i && (match c with Some _ => true | None => false end) && negb changed) then Some (before_image i c) else before)
  | _ :: r => acc_entry r a changed before
  end.
Definition acc_now (b : buffer) : gmap N bytes := default ∅ (b_acc_changes b !! b_block b).
Definition st_now (b : buffer) : gmap (N * N * N) bytes := default ∅ (b_st_changes b !! b_block b).
Definition in_block (o : buf_op) : Prop := match o with OBegin _ => False | _ => True end.
Lemma entries ops : forall b, Forall in_block ops ->
  b_block (buf_run b ops) = b_block b
  /\ (forall m, m <> b_block b -> b_acc_changes (buf_run b ops) !! m = b_acc_changes b !! m /\ b_st_changes (buf_run b ops) !! m = b_st_changes b !! m)
  /\ (forall k, st_now (buf_run b ops) !! k = st_entry ops k (st_now b !! k))
  /\ (forall a, acc_now (buf_run b ops) !! a = acc_entry ops a (bool_decide (a ∈ b_changed b)) (acc_now b !! a)).
Proof.
  induction ops as [|o ops IH]; intros b F; [repeat split|]. apply Forall_cons_iff in F as (Fo & F). destruct (IH (buf_step b o) F) as (A1 & A2 & A3 & A4). unfold buf_run in *. cbn [fold_left].
  destruct o as [n|a i c|a inc h code|a inc l i c]; cbn [buf_step in_block st_entry acc_entry] in *; [destruct Fo| | |].
  - assert (B : b_block (update_account b a i c) = b_block b /\ b_changed (update_account b a i c) = b_changed b /\ b_st_changes (update_account b a i c) = b_st_changes b
       /\ (forall m, m <> b_block b -> b_acc_changes (update_account b a i c) !! m = b_acc_changes b !! m)
       /\ (forall x, acc_now (update_account b a i c) !! x = if (a =? x) && negb (opt_account_eqb c i && (match c with Some _ => true | None => false end) && negb (bool_decide (x ∈ b_changed b))) then Some (before_image i c) else acc_now b !! x)).
    { unfold update_account. set (del := match c with Some _ => false | None => true end).
      replace (match c with Some _ => true | None => false end) with (negb del) by (unfold del; now destruct c).
      assert (Eb : (match i with Some i => encode_for_storage i (negb del) | None => [] end) = before_image i c) by (unfold before_image, del; destruct i, c; reflexivity). rewrite Eb.
      destruct (opt_account_eqb c i && negb del && negb (bool_decide (a ∈ b_changed b))) eqn:G.
      - repeat split. intros x. destruct (N.eqb_spec a x) as [ -> |]; cbn [andb]; [now rewrite G|reflexivity].
      - assert (P : forall b', b_block b' = b_block b -> b_acc_changes b' = <[b_block b:=<[a:=before_image i c]> (default ∅ (b_acc_changes b !! b_block b))]> (b_acc_changes b) ->
           (forall m, m <> b_block b -> b_acc_changes b' !! m = b_acc_changes b !! m)
           /\ (forall x, acc_now b' !! x = if (a =? x) && negb (opt_account_eqb c i && negb del && negb (bool_decide (x ∈ b_changed b))) then Some (before_image i c) else acc_now b !! x)).
        { intros b' E1 E2. split; [intros m Nm; rewrite E2; now rewrite lookup_insert_ne by congruence|]. intros x. unfold acc_now. rewrite E1, E2, lookup_insert. cbn [from_option id]. destruct (N.eqb_spec a x) as [ -> |Nx]; cbn [andb]; [rewrite lookup_insert; now rewrite G|now rewrite lookup_insert_ne by congruence]. }
        destruct (opt_account_eqb c i); (split; [reflexivity|]; split; [reflexivity|]; split; [reflexivity|]; apply P; reflexivity). }
    destruct B as (B1 & B2 & B3 & B4 & B5). split; [now rewrite A1|]. split; [intros m Nm; rewrite B1 in A2; destruct (A2 m Nm) as (X1 & X2); rewrite X1, X2, B3; split; [now apply B4|reflexivity]|]. split.
    + intros k. rewrite A3. unfold st_now. now rewrite B1, B3.
    + intros x. rewrite A4, B5, B2. reflexivity.
  - split; [exact A1|]. split; [exact A2|]. split; [exact A3|exact A4].
  - assert (B : b_block (update_storage b a inc l i c) = b_block b /\ b_acc_changes (update_storage b a inc l i c) = b_acc_changes b
       /\ (forall m, m <> b_block b -> b_st_changes (update_storage b a inc l i c) !! m = b_st_changes b !! m)
       /\ (forall k, st_now (update_storage b a inc l i c) !! k = if bool_decide ((a, inc, l) = k) && negb (c =? i) then Some (zeroless_view (word i)) else st_now b !! k)
       /\ (forall x, bool_decide (x ∈ b_changed (update_storage b a inc l i c)) = bool_decide (x ∈ b_changed b) || ((a =? x) && negb (c =? i)))).
    { unfold update_storage. destruct (c =? i); [repeat split; intros; rewrite ?andb_false_r, ?orb_false_r; reflexivity|]. split; [reflexivity|]. split; [reflexivity|]. cbn [b_st_changes b_changed negb]. split; [intros m Nm; now rewrite lookup_insert_ne by congruence|]. split.
      - intros k. rewrite andb_true_r. unfold st_now. cbn [b_st_changes b_block]. rewrite lookup_insert. cbn [from_option id]. destruct (decide ((a, inc, l) = k)) as [ <- |Nk]; [rewrite lookup_insert; now rewrite bool_decide_true|rewrite lookup_insert_ne by congruence; now rewrite bool_decide_false].
      - intros x. rewrite andb_true_r. destruct (N.eqb_spec a x) as [ -> |Nx]; [rewrite orb_true_r; apply bool_decide_true; set_solver|rewrite orb_false_r; apply bool_decide_ext; set_solver]. }
    destruct B as (B1 & B2 & B3 & B4 & B5). split; [now rewrite A1|]. split; [intros m Nm; rewrite B1 in A2; destruct (A2 m Nm) as (X1 & X2); rewrite X1, X2, B2; split; [reflexivity|now apply B3]|]. split.
    + intros k. now rewrite A3, B4.
    + intros x. rewrite A4, B5. unfold acc_now. now rewrite B1, B2.
Qed.

(** ** Each slot and each account once, slots first *)
Lemma st_entry_none ops k before : ~ In k (updated_slots ops) -> st_entry ops k before = before.
Proof.
  revert before. induction ops as [|o ops IH]; intros before N; [reflexivity|]. destruct o as [n|a i c|a inc h code|a inc l i c]; cbn [st_entry updated_slots omap list_omap] in *; try (now apply IH).
  rewrite IH by (intros X; apply N; now right). rewrite bool_decide_false; [reflexivity|]. intros E. apply N. now left.
Qed.
Lemma st_entry_once ops k : List.NoDup (updated_slots ops) -> forall v, st_entry ops k None = Some v <-> exists x y, In (OStorage k.1.1 k.1.2 k.2 x y) ops /\ x <> y /\ v = zeroless_view (word x).
Proof.
  induction ops as [|o ops IH]; intros Nd v; [split; [discriminate|intros (? & ? & [] & _)]|]. destruct o as [n|a i c|a inc h code|a inc l i c]; cbn [st_entry updated_slots omap list_omap] in *.
  1-3: rewrite (IH Nd); split; [intros (x & y & I & R); exists x, y; split; [now right|exact R]|intros (x & y & [I|I] & R); [discriminate|exists x, y; auto]].
  apply NoDup_cons_iff in Nd as (N0 & Nd). destruct (decide ((a, inc, l) = k)) as [ <- |Nk].
  - rewrite bool_decide_true by reflexivity. cbn [andb]. rewrite st_entry_none by exact N0. cbn [fst snd]. destruct (N.eqb_spec c i) as [ -> |Nc]; cbn [negb].
    + split; [discriminate|]. intros (x & y & [I|I] & Nx & _); [injection I as -> ->; congruence|]. exfalso. apply N0. apply elem_of_list_In, elem_of_list_omap. exists (OStorage a inc l x y). split; [now apply elem_of_list_In|reflexivity].
    + split; [intros E; apply (inj Some) in E; subst v; exists i, c; split; [now left|]; split; [congruence|reflexivity]|]. intros (x & y & [I|I] & Nx & ->); [now replace i with x by congruence|]. exfalso. apply N0. apply elem_of_list_In, elem_of_list_omap. exists (OStorage a inc l x y). split; [now apply elem_of_list_In|reflexivity].
  - rewrite bool_decide_false by exact Nk. cbn [andb]. rewrite (IH Nd). split; [intros (x & y & I & R); exists x, y; split; [now right|exact R]|]. intros (x & y & [I|I] & R); [|exists x, y; auto]. exfalso. apply Nk. destruct k as [[a' i'] l']. cbn in I. congruence.
Qed.
Lemma acc_entry_slots st ac a : Forall slot_update st -> forall ch before, acc_entry (st ++ ac) a ch before = acc_entry ac a (ch || existsb (fun o => match o with OStorage x _ _ i c => (x =? a) && negb (c =? i) | _ => false end) st) before.
Proof.
  induction st as [|o st IH]; intros F ch before; [now rewrite orb_false_r|]. apply Forall_cons_iff in F as (Fo & F). destruct o as [n|x i c|x inc h code|x inc l i c]; cbn [slot_update] in Fo; try (now destruct Fo); cbn [app acc_entry existsb].
  - now apply IH.
  - rewrite IH by exact F. now rewrite orb_assoc.
Qed.
Lemma acc_entry_none ac a ch before : Forall account_update ac -> ~ In a (updated_accounts ac) -> acc_entry ac a ch before = before.
Proof.
  revert before. induction ac as [|o ac IH]; intros before F N; [reflexivity|]. apply Forall_cons_iff in F as (Fo & F). destruct o as [n|x i c|x inc h code|x inc l i c]; cbn [account_update] in Fo; try (now destruct Fo); cbn [acc_entry updated_accounts omap list_omap] in *.
  - rewrite IH; [|exact F|intros X; apply N; now right]. destruct (N.eqb_spec x a) as [ -> |]; [exfalso; apply N; now left|reflexivity].
  - now apply IH.
Qed.
Lemma acc_entry_once ac a ch : Forall account_update ac -> List.NoDup (updated_accounts ac) -> forall v, acc_entry ac a ch None = Some v <->
  exists i c, In (OAccount a i c) ac /\ (i <> c \/ c = None \/ ch = true) /\ v = before_image i c.
Proof.
  induction ac as [|o ac IH]; intros F Nd v; [split; [discriminate|intros (? & ? & [] & _)]|]. apply Forall_cons_iff in F as (Fo & F). destruct o as [n|x i c|x inc h code|x inc l i c]; cbn [account_update] in Fo; try (now destruct Fo); cbn [acc_entry updated_accounts omap list_omap] in *.
  - apply NoDup_cons_iff in Nd as (N0 & Nd). destruct (N.eqb_spec x a) as [ -> |Nx]; cbn [andb].
    + assert (NI : forall i c, ~ In (OAccount a i c) ac) by (intros i' c' I; apply N0; apply elem_of_list_In, elem_of_list_omap; exists (OAccount a i' c'); split; [now apply elem_of_list_In|reflexivity]).
      rewrite acc_entry_none by assumption. destruct (opt_account_eqb_spec c i) as [ -> |Nc]; cbn [andb negb].
      * destruct i as [i|]; cbn [andb negb].
        -- destruct ch; cbn [negb].
           ++ split; [intros E; injection E as <-; exists (Some i), (Some i); split; [now left|]; auto|]. intros (i' & c' & [I|I] & _ & ->); [injection I as <- <-; reflexivity|now apply NI in I].
           ++ split; [discriminate|]. intros (i' & c' & [I|I] & [R|[R|R]] & _); try congruence; now apply NI in I.
        -- split; [intros E; injection E as <-; exists None, None; split; [now left|]; auto|]. intros (i' & c' & [I|I] & _ & ->); [injection I as <- <-; reflexivity|now apply NI in I].
      * split; [intros E; injection E as <-; exists i, c; split; [now left|]; split; [left; congruence|reflexivity]|]. intros (i' & c' & [I|I] & _ & ->); [injection I as <- <-; reflexivity|now apply NI in I].
    + rewrite (IH F Nd). split; intros (i' & c' & I & R); exists i', c'; (split; [|exact R]); [now right|]. destruct I as [I|I]; [congruence|exact I].
  - rewrite (IH F Nd). split; intros (i' & c' & I & R); exists i', c'; (split; [|exact R]); [now right|]. destruct I as [I|I]; [congruence|exact I].
Qed.
