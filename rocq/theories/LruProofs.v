From Verif Require Import Base LruModel LruSpec.

Section Proofs.
  Context {K V : Type}.
  Variable key_dec : forall a b : K, {a = b} + {a <> b}.
  Notation lru := (lru K V).
  Notation event := (event K V).

  (** ** Lists without repetition *)
  Lemma remove_not_in (k : K) l : ~ In k l -> remove key_dec k l = l.
  Proof.
    induction l as [|x l IH]; cbn; intros H; [reflexivity|]. destruct (key_dec k x); [subst; tauto|]. f_equal. tauto.
  Qed.
  Lemma NoDup_remove_key (k : K) l : NoDup l -> NoDup (remove key_dec k l).
  Proof.
    induction 1 as [|x l Hx Hl IH]; cbn; [constructor|]. destruct (key_dec k x); [exact IH|]. constructor; [|exact IH].
    intros H. apply in_remove in H. tauto.
  Qed.

  Lemma firstn_remove_in n (k : K) l : NoDup l -> In k (firstn (S n) l) -> firstn n (remove key_dec k l) = remove key_dec k (firstn (S n) l).
  Proof.
    revert n. induction l as [|x l IH]; intros n Hd Hi; [destruct Hi|]. inversion Hd as [|? ? Hx Hl]; subst. cbn [firstn remove].
    destruct (key_dec k x) as [->|E].
    - rewrite (remove_not_in x l) by exact Hx. rewrite remove_not_in; [reflexivity|]. intros H. apply Hx. 
      rewrite <- (firstn_skipn n l). apply in_or_app. now left.
    - cbn [firstn In] in Hi. destruct Hi as [->|Hi]; [congruence|]. destruct n as [|n]; [destruct Hi|].
      cbn [firstn]. f_equal. now apply IH.
  Qed.
  Lemma firstn_remove_out n (k : K) l : NoDup l -> ~ In k (firstn (S n) l) -> firstn n (remove key_dec k l) = firstn n l.
  Proof.
    revert n. induction l as [|x l IH]; intros n Hd Hi; [now destruct n|]. inversion Hd as [|? ? Hx Hl]; subst. cbn [firstn In] in Hi.
    cbn [remove]. destruct (key_dec k x) as [->|E]; [tauto|]. destruct n as [|n]; [reflexivity|]. cbn [firstn]. f_equal. apply IH; tauto.
  Qed.

  (** ** Invariant *)
  Notation keys c := (map (fun e => fst (snd e)) (items c)).
  Definition inv (c : lru) : Prop :=
    NoDup (keys c) /\ NoDup (map fst (items c)) /\ (forall i kv, In (i, kv) (items c) -> (i < next c)%nat) /\
    (forall k i, index_find key_dec k (index c) = Some i <-> exists v, In (i, (k, v)) (items c)) /\
    NoDup (map fst (index c)) /\ length (index c) = length (items c).

  Lemma index_find_in k i m : index_find key_dec k m = Some i -> In (k, i) m.
  Proof. induction m as [|[k' j] t IH]; cbn; [discriminate|]. destruct (key_dec k k') as [->|]; [intros [= ->]; auto|auto]. Qed.
  Lemma index_find_none k m : index_find key_dec k m = None <-> ~ In k (map fst m).
  Proof.
    induction m as [|[k' j] t IH]; cbn; [tauto|]. destruct (key_dec k k') as [->|E]; [split; [discriminate|tauto]|]. rewrite IH.
    split; intros H; [intros [?|?]; [congruence|tauto]|tauto].
  Qed.
  Lemma index_find_erase k k' m : index_find key_dec k (index_erase key_dec k' m) = if key_dec k k' then None else index_find key_dec k m.
  Proof.
    induction m as [|[x j] t IH]; cbn; [destruct (key_dec k k'); reflexivity|]. fold (index_erase key_dec k' t).
    destruct (key_dec k' x) as [->|E].
    - rewrite IH. destruct (key_dec k x); reflexivity.
    - cbn. rewrite IH. destruct (key_dec k x) as [->|]; [destruct (key_dec x k'); [congruence|reflexivity]|reflexivity].
  Qed.
  Lemma index_erase_nodup k m : NoDup (map fst m) -> NoDup (map fst (index_erase key_dec k m)).
  Proof.
    induction m as [|[x j] t IH]; cbn; intros H; [constructor|]. inversion H as [|? ? Hx Ht]; subst. fold (index_erase key_dec k t). destruct (key_dec k x); [auto|].
    cbn. constructor; [|auto]. intros Hi. apply Hx. apply in_map_iff in Hi as ([y z] & <- & Hi). apply filter_In in Hi as [Hi _].
    apply in_map_iff. eauto.
  Qed.
  Lemma index_erase_length k m : NoDup (map fst m) -> length (index_erase key_dec k m) = if index_find key_dec k m then pred (length m) else length m.
  Proof.
    induction m as [|[x j] t IH]; cbn; intros H; [reflexivity|]. inversion H as [|? ? Hx Ht]; subst. fold (index_erase key_dec k t). destruct (key_dec k x) as [->|E].
    - rewrite IH by exact Ht. apply index_find_none in Hx. now rewrite Hx.
    - cbn. rewrite IH by exact Ht. destruct (index_find key_dec k t) eqn:F; [|reflexivity].
      destruct t as [|e t]; [discriminate|reflexivity].
  Qed.

  Lemma list_erase_in i e (l : list (nat * (K * V))) : In e (list_erase i l) <-> In e l /\ fst e <> i.
  Proof. unfold list_erase. rewrite filter_In, negb_true_iff, Nat.eqb_neq. reflexivity. Qed.
  Lemma list_erase_id i (l : list (nat * (K * V))) : ~ In i (map fst l) -> list_erase i l = l.
  Proof.
    induction l as [|[j kv] t IH]; cbn; intros H; [reflexivity|]. fold (list_erase i t); destruct (Nat.eqb_spec j i); [subst; tauto|]. cbn. f_equal. tauto.
  Qed.
  Lemma list_erase_length i kv (l : list (nat * (K * V))) : NoDup (map fst l) -> In (i, kv) l -> length (list_erase i l) = pred (length l).
  Proof.
    induction l as [|[j x] t IH]; cbn; intros H Hi; [tauto|]. inversion H as [|? ? Hx Ht]; subst. fold (list_erase i t); destruct (Nat.eqb_spec j i) as [->|E].
    - cbn. now rewrite list_erase_id.
    - cbn. destruct Hi as [[= -> _]|Hi]; [congruence|]. rewrite IH by assumption. destruct t; [destruct Hi|reflexivity].
  Qed.
  Lemma list_erase_ids i (l : list (nat * (K * V))) : NoDup (map fst l) -> NoDup (map fst (list_erase i l)).
  Proof.
    induction l as [|[j x] t IH]; cbn; intros H; [constructor|]. inversion H as [|? ? Hx Ht]; subst. fold (list_erase i t); destruct (Nat.eqb_spec j i); cbn; [auto|].
    constructor; [|auto]. intros Hi. apply in_map_iff in Hi as ([a b] & <- & Hi). apply list_erase_in in Hi as [Hi _]. apply Hx.
    apply in_map_iff. exists (a, b). auto.
  Qed.
  (** Erasing the node of key k removes k from the key list. *)
  Lemma list_erase_keys i k v (l : list (nat * (K * V))) : NoDup (map fst l) -> NoDup (map (fun e => fst (snd e)) l) -> In (i, (k, v)) l ->
    map snd (list_erase i l) = filter (fun kv => if key_dec k (fst kv) then false else true) (map snd l).
  Proof.
    induction l as [|[j [k' v']] t IH]; cbn; intros H H' Hi; [tauto|].
    inversion H as [|? ? Hx Ht]; inversion H' as [|? ? Hx' Ht']; subst.
    destruct Hi as [[= -> -> ->]|Hi].
    - fold (list_erase i t). rewrite Nat.eqb_refl. cbn. destruct (key_dec k k); [|congruence]. rewrite list_erase_id by exact Hx.
      clear -Hx' key_dec. induction t as [|[a [b c]] t IH]; [reflexivity|]. cbn in *. destruct (key_dec k b); [subst; tauto|]. f_equal. apply IH. tauto.
    - fold (list_erase i t); destruct (Nat.eqb_spec j i) as [->|E].
      + exfalso. apply Hx. apply in_map_iff. exists (i, (k, v)). auto.
      + cbn. destruct (key_dec k k') as [->|E'].
        * exfalso. apply Hx'. apply in_map_iff. exists (i, (k', v)). auto.
        * f_equal. now apply IH.
  Qed.
  Lemma node_in i kv (l : list (nat * (K * V))) : NoDup (map fst l) -> In (i, kv) l -> node i l = Some kv.
  Proof.
    induction l as [|[j x] t IH]; cbn; intros H Hi; [tauto|]. inversion H as [|? ? Hx Ht]; subst. destruct Hi as [[= -> ->]|Hi].
    - now rewrite Nat.eqb_refl.
    - destruct (Nat.eqb_spec j i) as [->|]; [|auto]. exfalso. apply Hx. apply in_map_iff. exists (i, kv). auto.
  Qed.

  (** Abstract content: (key, value) pairs, most recent first. *)
  Definition content (c : lru) : list (K * V) := map snd (items c).
  Definition drop (k : K) (l : list (K * V)) := filter (fun kv => if key_dec k (fst kv) then false else true) l.

  Lemma content_mk l m n x : content (mkLru l m n x) = map snd l.
  Proof. reflexivity. Qed.
  Lemma keys_content c : keys c = map fst (content c).
  Proof. unfold content. now rewrite map_map. Qed.
  Lemma map_drop k l : map fst (drop k l) = remove key_dec k (map fst l).
  Proof. induction l as [|[a b] l IH]; cbn; [reflexivity|]. destruct (key_dec k a); cbn; [exact IH|now f_equal]. Qed.

  Lemma drop_not_in k l : ~ In k (map fst l) -> drop k l = l.
  Proof. induction l as [|[a b] l IH]; cbn; intros H; [reflexivity|]. destruct (key_dec k a); [subst; tauto|]. f_equal. tauto. Qed.

  Lemma inv_new n : inv (lru_new n).
  Proof.
    unfold inv, lru_new. cbn. repeat split; try constructor; try tauto; try discriminate. intros (v & []).
  Qed.

  Lemma inv_clear c : inv c -> inv (lru_clear c).
  Proof. intros _. unfold inv, lru_clear. cbn. repeat split; try constructor; try tauto; try discriminate. intros (v & []). Qed.

  (** The state right before the eviction of lru_put. *)
  Lemma put_mid c k v : inv c ->
    exists l m, (match index_find key_dec k (index c) with
      | Some i => (list_erase i ((next c, (k, v)) :: items c), index_erase key_dec k (index c))
      | None => ((next c, (k, v)) :: items c, index c) end) = (l, m) /\
      inv (mkLru l ((k, next c) :: m) (S (next c)) (max_size c)) /\ map snd l = (k, v) :: drop k (content c).
  Proof.
    intros (I1 & I2 & I3 & I4 & I5 & I6). destruct (index_find key_dec k (index c)) as [i|] eqn:F.
    - destruct (proj1 (I4 k i) F) as (v0 & Hin). pose proof (I3 _ _ Hin) as Hi.
      assert (E : list_erase i ((next c, (k, v)) :: items c) = (next c, (k, v)) :: list_erase i (items c)).
      { cbn. destruct (Nat.eqb_spec (next c) i); [lia|reflexivity]. }
      exists ((next c, (k, v)) :: list_erase i (items c)), (index_erase key_dec k (index c)). split; [now rewrite E|].
      assert (Kc : map snd (list_erase i (items c)) = drop k (content c)) by now apply (list_erase_keys i k v0).
      split; [|cbn; now f_equal]. unfold inv. cbn [items index next max_size map fst snd].
      assert (Kk : map (fun e => fst (snd e)) (list_erase i (items c)) = remove key_dec k (keys c)).
      { rewrite keys_content, <- map_drop, <- Kc, map_map. reflexivity. }
      split; [rewrite Kk; constructor; [intros H; apply in_remove in H; tauto|now apply NoDup_remove_key]|].
      split; [constructor; [|now apply list_erase_ids]|].
      { intros H. apply in_map_iff in H as ([j x] & E1 & H). cbn in E1. subst j. apply list_erase_in in H as [H _]. apply I3 in H. lia. }
      split.
      { intros j x [[= <- _]|H]; [lia|]. apply list_erase_in in H as [H _]. apply I3 in H. lia. }
      split.
      { intros k' j. cbn [index_find]. destruct (key_dec k' k) as [->|Ek].
        - split; [intros [= <-]; exists v; now left|]. intros (x & [[= <- _]|H]); [reflexivity|].
          apply list_erase_in in H as [H Hj]. cbn in Hj. exfalso. apply Hj.
          assert (index_find key_dec k (index c) = Some j) by (apply I4; eauto). congruence.
        - rewrite index_find_erase. destruct (key_dec k' k) as [|_]; [congruence|]. rewrite I4. split.
          + intros (x & H). exists x. right. apply list_erase_in. split; [exact H|]. cbn. intros ->.
            pose proof (node_in _ _ _ I2 H). pose proof (node_in _ _ _ I2 Hin). congruence.
          + intros (x & [[= _ E1 _]|H]); [congruence|]. apply list_erase_in in H as [H _]. eauto. }
      split.
      { constructor; [|now apply index_erase_nodup]. apply index_find_none. rewrite index_find_erase. destruct (key_dec k k); congruence. }
      cbn [length]. rewrite index_erase_length by exact I5. rewrite F. rewrite (list_erase_length i (k, v0)) by assumption. lia.
    - exists ((next c, (k, v)) :: items c), (index c). split; [reflexivity|].
      assert (Hk : ~ In k (keys c)).
      { intros H. apply in_map_iff in H as ([j [k' x]] & E & H). cbn in E. subst k'.
        assert (index_find key_dec k (index c) = Some j) by (apply I4; eauto). congruence. }
      split; [|cbn; f_equal; symmetry; apply drop_not_in; rewrite map_map; exact Hk].
      unfold inv. cbn [items index next max_size map fst snd].
      split; [now constructor|]. split.
      { constructor; [|exact I2]. intros H. apply in_map_iff in H as ([j x] & E1 & H). cbn in E1. subst j. apply I3 in H. lia. }
      split; [intros j x [[= <- _]|H]; [lia|apply I3 in H; lia]|]. split.
      { intros k' j. cbn [index_find]. destruct (key_dec k' k) as [->|Ek].
        - split; [intros [= <-]; exists v; now left|]. intros (x & [[= <- _]|H]); [reflexivity|].
          exfalso. apply Hk. apply in_map_iff. exists (j, (k, x)). auto.
        - rewrite I4. split; [intros (x & H); exists x; now right|]. intros (x & [[= _ E1 _]|H]); [congruence|eauto]. }
      split; [|cbn; lia]. constructor; [now apply index_find_none|exact I5].
  Qed.

  Lemma removelast_firstn_pred {A} (l : list A) : removelast l = firstn (pred (length l)) l.
  Proof. apply removelast_firstn_len. Qed.

  Lemma put_correct c k v : inv c -> (length (items c) <= max_size c)%nat ->
    exists c', lru_put key_dec c k v = Some c' /\ inv c' /\ max_size c' = max_size c /\ (length (items c') <= max_size c')%nat /\
      content c' = firstn (max_size c) ((k, v) :: drop k (content c)).
  Proof.
    intros I Hs. unfold lru_put. destruct (put_mid c k v I) as (l & m & E & I' & El). rewrite E.
    destruct I' as (I1 & I2 & I3 & I4 & I5 & I6). cbn [items index next max_size] in *.
    assert (Ll : (length l <= S (max_size c))%nat).
    { assert (length l = S (length (drop k (content c)))) by (rewrite <- (map_length snd l), El; reflexivity).
      assert (forall x, length (drop k x) <= length x)%nat by (intros x; unfold drop; induction x as [|[? ?] ? ?]; cbn; [lia|destruct (key_dec _ _); cbn; lia]).
      specialize (H0 (content c)). unfold content in *. rewrite map_length in H0. lia. }
    destruct (Nat.ltb_spec (max_size c) (length ((k, next c) :: m))) as [Hlt|Hle].
    - destruct (rev l) as [|[li [lk lv]] rl] eqn:Er.
      + exfalso. assert (l = []) by (apply (f_equal (@rev _)) in Er; rewrite rev_involutive in Er; exact Er). subst l. discriminate.
      + assert (Hl : l = rev rl ++ [(li, (lk, lv))]).
        { apply (f_equal (@rev _)) in Er. rewrite rev_involutive in Er. exact Er. }
        eexists. split; [reflexivity|]. rewrite content_mk. cbn [items index next max_size].
        assert (El' : removelast l = rev rl) by (rewrite Hl; apply removelast_last).
        assert (Hlen : length l = S (max_size c)) by lia.
        split; [|split; [reflexivity|]].
        * unfold inv. cbn [items index next max_size]. rewrite El'.
          assert (N1 : NoDup (map (fun e => fst (snd e)) (rev rl)) /\ ~ In lk (map (fun e => fst (snd e)) (rev rl))).
          { rewrite Hl, map_app in I1. cbn in I1. apply NoDup_remove in I1. rewrite app_nil_r in I1. exact I1. }
          assert (N2 : NoDup (map fst (rev rl)) /\ ~ In li (map fst (rev rl))).
          { rewrite Hl, map_app in I2. cbn in I2. apply NoDup_remove in I2. rewrite app_nil_r in I2. exact I2. }
          destruct N1 as [N1 N1'], N2 as [N2 N2'].
          split; [exact N1|]. split; [exact N2|]. split.
          { intros i kv H. apply (I3 i kv). rewrite Hl. apply in_or_app. now left. }
          split.
          { intros k' i. rewrite index_find_erase. destruct (key_dec k' lk) as [->|Ek].
            - split; [discriminate|]. intros (x & H). exfalso. apply N1'. apply in_map_iff. exists (i, (lk, x)). auto.
            - rewrite I4. split; intros (x & H).
              + exists x. rewrite Hl in H. apply in_app_or in H as [H|[[= _ E1 _]|[]]]; [exact H|congruence].
              + exists x. rewrite Hl. apply in_or_app. now left. }
          split; [now apply index_erase_nodup|]. rewrite index_erase_length by exact I5.
          assert (F : index_find key_dec lk ((k, next c) :: m) = Some li).
          { apply I4. exists lv. rewrite Hl. apply in_or_app. right. now left. }
          rewrite F, I6, Hl, app_length. cbn [length]. lia.
        * split; [rewrite El'; rewrite Hl, app_length in Hlen; cbn in Hlen; lia|].
          rewrite <- El. rewrite removelast_firstn_pred, Hlen. cbn [pred]. now rewrite firstn_map.
    - eexists. split; [reflexivity|]. split; [unfold inv; cbn [items index next max_size]; tauto|].
      cbn [items index next max_size]. split; [reflexivity|]. split; [rewrite <- I6; exact Hle|].
      rewrite content_mk, <- El. rewrite I6 in Hle. rewrite firstn_all2; [reflexivity|]. rewrite map_length. exact Hle.
  Qed.

  Lemma node_some i kv (l : list (nat * (K * V))) : node i l = Some kv -> In (i, kv) l.
  Proof. induction l as [|[j x] t IH]; cbn; [discriminate|]. destruct (Nat.eqb_spec j i); [intros [= ->]; subst; auto|auto]. Qed.

  Lemma in_keys c k : inv c -> In k (map fst (content c)) <-> exists i, index_find key_dec k (index c) = Some i.
  Proof.
    intros (I1 & I2 & I3 & I4 & I5 & I6). rewrite <- keys_content, in_map_iff. split.
    - intros ([i [k' x]] & E & H). cbn in E. subst k'. exists i. apply I4. eauto.
    - intros (i & H). apply I4 in H as (x & H). exists (i, (k, x)). auto.
  Qed.

  Lemma get_correct c k : inv c ->
    (~ In k (map fst (content c)) /\ lru_get key_dec c k = Some (None, c)) \/
    (exists v c', In (k, v) (content c) /\ lru_get key_dec c k = Some (Some v, c') /\ inv c' /\ max_size c' = max_size c /\
      length (items c') = length (items c) /\ content c' = (k, v) :: drop k (content c)).
  Proof.
    intros I. pose proof I as (I1 & I2 & I3 & I4 & I5 & I6). unfold lru_get. destruct (index_find key_dec k (index c)) as [i|] eqn:F.
    - right. destruct (proj1 (I4 k i) F) as (v & Hin). rewrite (node_in _ _ _ I2 Hin). cbn [snd].
      assert (Kc : map snd (list_erase i (items c)) = drop k (content c)) by now apply (list_erase_keys i k v).
      assert (Kk : map (fun e => fst (snd e)) (list_erase i (items c)) = remove key_dec k (keys c)).
      { rewrite keys_content, <- map_drop, <- Kc, map_map. reflexivity. }
      assert (Hlen : length ((i, (k, v)) :: list_erase i (items c)) = length (items c)).
      { cbn [length]. rewrite (list_erase_length i (k, v)) by assumption. destruct (items c); [destruct Hin|reflexivity]. }
      eexists v, _. split; [unfold content; apply in_map_iff; exists (i, (k, v)); auto|]. split; [reflexivity|].
      split; [|cbn [items max_size]; split; [reflexivity|]; split; [exact Hlen|]; rewrite content_mk; cbn; now f_equal].
      unfold inv. cbn [items index next max_size map fst snd]. rewrite Kk.
      split; [constructor; [intros H; apply in_remove in H; tauto|now apply NoDup_remove_key]|].
      split.
      { constructor; [|now apply list_erase_ids]. intros H. apply in_map_iff in H as (e & E1 & H). apply list_erase_in in H. tauto. }
      split; [intros j x [[= <- <-]|H]; [eauto|apply list_erase_in in H as [H _]; eauto]|].
      split.
      { intros k' j. rewrite I4. split; intros (x & H).
        - exists x. destruct (Nat.eq_dec j i) as [->|E].
          + pose proof (node_in _ _ _ I2 H). pose proof (node_in _ _ _ I2 Hin). left. congruence.
          + right. apply list_erase_in. auto.
        - exists x. destruct H as [[= <- <- <-]|H]; [exact Hin|]. apply list_erase_in in H as [H _]. exact H. }
      split; [exact I5|]. rewrite Hlen. exact I6.
    - left. split; [|reflexivity]. intros H. apply in_keys in H; [|exact I]. destruct H as (i & H). congruence.
  Qed.

  (** ** Traces *)
  Lemma recency_nodup (tr : list event) : NoDup (recency key_dec tr).
  Proof.
    induction tr as [|e tr IH]; [constructor|]. assert (forall k, NoDup (k :: remove key_dec k (recency key_dec tr))) as Hk.
    { intros k. constructor; [intros H; apply in_remove in H; tauto|now apply NoDup_remove_key]. }
    destruct e; cbn; [apply Hk|apply Hk|exact IH|constructor].
  Qed.

  Definition good (cap : nat) (s : lru * list event) : Prop :=
    let '(c, tr) := s in inv c /\ max_size c = cap /\ (length (items c) <= cap)%nat /\
      map fst (content c) = firstn cap (recency key_dec tr) /\ forall k v, In (k, v) (content c) -> last_put key_dec tr k = Some v.

  Lemma drop_in k e l : In e (drop k l) <-> In e l /\ fst e <> k.
  Proof. unfold drop. rewrite filter_In. destruct (key_dec k (fst e)); split; intros [? ?]; split; congruence. Qed.

  Lemma touch_keys n (k : K) R : NoDup R ->
    firstn n (k :: remove key_dec k R) = firstn n (k :: remove key_dec k (firstn n R)).
  Proof.
    intros Hd. destruct n as [|n]; [reflexivity|]. rewrite !firstn_cons. f_equal.
    destruct (in_dec key_dec k (firstn (S n) R)) as [H|H].
    - rewrite firstn_remove_in by assumption. symmetry. apply firstn_all2.
      assert (forall l, In k l -> length (remove key_dec k l) < length l)%nat by (intros; now apply remove_length_lt).
      specialize (H0 _ H). pose proof (firstn_le_length (S n) R). lia.
    - rewrite firstn_remove_out by assumption. rewrite (remove_not_in k (firstn (S n) R)) by exact H. rewrite firstn_firstn. f_equal. lia.
  Qed.

  Lemma content_length c : length (content c) = length (items c).
  Proof. unfold content. apply map_length. Qed.

  Lemma step_good cap s o : good cap s -> exists s', step key_dec s o = Some s' /\ good cap s'.
  Proof.
    destruct s as [c tr]. intros (I & Hm & Hl & Hk & Hv). destruct o as [k v|k|]; cbn [step].
    - destruct (put_correct c k v I) as (c' & -> & I' & Hm' & Hl' & Hc'); [lia|]. eexists. split; [reflexivity|]. cbn [good].
      split; [exact I'|]. split; [congruence|]. split; [lia|]. rewrite Hm in Hc'. split.
      + rewrite Hc', <- firstn_map. cbn [map fst]. rewrite map_drop, Hk. cbn [recency]. symmetry. apply touch_keys. apply recency_nodup.
      + intros k' v' H. rewrite Hc' in H. assert (H' : In (k', v') ((k, v) :: drop k (content c))).
        { rewrite <- (firstn_skipn cap). apply in_or_app. now left. }
        cbn [last_put]. destruct H' as [[= -> ->]|H']; [destruct (key_dec k' k'); congruence|].
        apply drop_in in H' as [H' E]. cbn in E. destruct (key_dec k' k); [congruence|]. now apply Hv.
    - destruct (get_correct c k I) as [(Hn & ->)|(v & c' & Hin & -> & I' & Hm' & Hl' & Hc')].
      + eexists. split; [reflexivity|]. cbn [good recency]. repeat split; try assumption; try apply I. 
      + eexists. split; [reflexivity|]. cbn [good]. split; [exact I'|]. split; [congruence|]. split; [lia|]. split.
        * rewrite Hc'. cbn [map fst recency]. rewrite map_drop, touch_keys by apply recency_nodup. rewrite <- Hk. symmetry. apply firstn_all2.
          cbn [length]. assert (Hik : In k (map fst (content c))) by (apply in_map_iff; exists (k, v); auto).
          pose proof (remove_length_lt key_dec _ _ Hik) as Hlt. rewrite map_length, content_length in Hlt. lia.
        * intros k' v' H. rewrite Hc' in H. cbn [last_put]. destruct H as [[= <- <-]|H]; [now apply Hv|]. apply drop_in in H as [H _]. now apply Hv.
    - eexists. split; [reflexivity|]. cbn [good]. split; [now apply inv_clear|]. cbn. repeat split; [exact Hm|lia|now rewrite firstn_nil|tauto].
  Qed.

  Lemma run_good cap s ops : good cap s -> exists s', run key_dec s ops = Some s' /\ good cap s'.
  Proof.
    revert s. induction ops as [|o t IH]; intros s H; cbn; [eauto|]. destruct (step_good cap s o H) as (s' & -> & H'). now apply IH.
  Qed.
  Lemma good_new cap : good cap (lru_new cap, []).
  Proof. cbn. split; [apply inv_new|]. repeat split; [lia|now rewrite firstn_nil|tauto]. Qed.

  Lemma lru_run_total cap (ops : list (op K V)) : exists c tr, run key_dec (lru_new cap, []) ops = Some (c, tr).
  Proof. destruct (run_good cap _ ops (good_new cap)) as ([c tr] & H & _). eauto. Qed.

  Lemma lru_run_get cap (ops : list (op K V)) c tr k : run key_dec (lru_new cap, []) ops = Some (c, tr) ->
    exists c', lru_get key_dec c k = Some (expected key_dec cap tr k, c').
  Proof.
    intros H. destruct (run_good cap _ ops (good_new cap)) as (s & H' & G). rewrite H in H'. injection H' as <-.
    destruct G as (I & Hm & Hl & Hk & Hv). unfold expected.
    destruct (get_correct c k I) as [(Hn & ->)|(v & c' & Hin & -> & _)].
    - exists c. destruct (in_dec _ _ _) as [Hi|]; [|reflexivity]. rewrite <- Hk in Hi. tauto.
    - exists c'. destruct (in_dec _ _ _) as [Hi|Hi]; [now rewrite (Hv _ _ Hin)|]. rewrite <- Hk in Hi. exfalso. apply Hi. apply in_map_iff.
      exists (k, v). auto.
  Qed.

  Lemma lru_run_size cap (ops : list (op K V)) c tr : run key_dec (lru_new cap, []) ops = Some (c, tr) ->
    lru_size c = Nat.min cap (length (recency key_dec tr)).
  Proof.
    intros H. destruct (run_good cap _ ops (good_new cap)) as (s & H' & G). rewrite H in H'. injection H' as <-.
    destruct G as (I & Hm & Hl & Hk & Hv). unfold lru_size. destruct I as (_ & _ & _ & _ & _ & ->).
    rewrite <- content_length, <- (map_length fst (content c)), Hk, firstn_length. reflexivity.
  Qed.

  (** The trace is the history with the observed results: it determines the history. *)
  Definition op_of (e : event) : op K V :=
    match e with EPut k v => Put k v | EHit k _ | EMiss k => Get k | EClear => Clear end.
  Lemma run_trace s ops c tr : run key_dec s ops = Some (c, tr) -> rev (map op_of tr) = rev (map op_of (snd s)) ++ ops.
  Proof.
    revert s. induction ops as [|o t IH]; intros [c0 tr0]; cbn [run snd]; [intros [= <- <-]; now rewrite app_nil_r|].
    intros H. destruct (step key_dec (c0, tr0) o) as [s'|] eqn:E; [|discriminate]. apply IH in H. rewrite H.
    replace (rev (map op_of (snd s'))) with (rev (map op_of tr0) ++ [o]); [now rewrite <- app_assoc|].
    destruct o as [k v|k|]; cbn [step] in E.
    - destruct (lru_put key_dec c0 k v); [|discriminate]. injection E as <-. reflexivity.
    - destruct (lru_get key_dec c0 k) as [[[v|] c']|]; [| |discriminate]; injection E as <-; reflexivity.
    - injection E as <-. reflexivity.
  Qed.

  (** ** Analysis cache *)
  (** Puts in a history (newest first) since the last change of revision. *)
  Definition ainv (cap : nat) (a : acache K V) (h : list (aop K V)) : Prop :=
    inv (ac_cache a) /\ max_size (ac_cache a) = cap /\ (length (items (ac_cache a)) <= cap)%nat /\
    (forall k v, In (k, v) (content (ac_cache a)) -> exists newer older,
      h = newer ++ APut k v (ac_revision a) :: older /\
      (forall k' v' r', In (APut k' v' r') newer -> k' <> k /\ r' = ac_revision a)).

  Lemma astep_inv cap a h o : ainv cap a h -> exists a', astep key_dec a o = Some a' /\ ainv cap a' (o :: h).
  Proof.
    intros (I & Hm & Hl & Hc). destruct o as [k v r|k r]; cbn [astep].
    - unfold acache_put. destruct (N.eqb_spec (ac_revision a) r) as [<-|Er]; cbn [negb].
      + destruct (put_correct (ac_cache a) k v I) as (c' & -> & I' & Hm' & Hl' & Hc'); [lia|]. eexists. split; [reflexivity|].
        unfold ainv. cbn [ac_cache ac_revision]. split; [exact I'|]. split; [congruence|]. split; [lia|].
        intros k' v' H. rewrite Hc' in H. assert (H' : In (k', v') ((k, v) :: drop k (content (ac_cache a)))).
        { rewrite <- (firstn_skipn (max_size (ac_cache a))). apply in_or_app. now left. }
        destruct H' as [[= <- <-]|H']; [exists [], h; split; [reflexivity|intros ? ? ? []]|].
        apply drop_in in H' as [H' E]. destruct (Hc _ _ H') as (n & o & -> & Hn). exists (APut k v (ac_revision a) :: n), o.
        split; [reflexivity|]. intros ? ? ? [[= <- <- <-]|Hi]; [split; [cbn in E; congruence|reflexivity]|now apply (Hn k'0 v'0)].
      + destruct (put_correct (lru_clear (ac_cache a)) k v) as (c' & -> & I' & Hm' & Hl' & Hc'); [now apply inv_clear|cbn; lia|].
        eexists. split; [reflexivity|]. unfold ainv. cbn [ac_cache ac_revision]. split; [exact I'|]. cbn in Hm'. split; [congruence|]. split; [lia|].
        intros k' v' H. rewrite Hc' in H. assert (H' : In (k', v') ((k, v) :: drop k (content (lru_clear (ac_cache a))))).
        { rewrite <- (firstn_skipn (max_size (lru_clear (ac_cache a)))). apply in_or_app. now left. }
        destruct H' as [[= <- <-]|[]]. exists [], h. split; [reflexivity|intros ? ? ? []].
    - unfold acache_get. assert (W : forall c', (forall k v, In (k, v) (content c') -> In (k, v) (content (ac_cache a))) ->
        inv c' -> max_size c' = cap -> (length (items c') <= cap)%nat -> ainv cap (mkACache c' (ac_revision a)) (AGet k r :: h)).
      { intros c' Hi I' H1 H2. unfold ainv. cbn [ac_cache ac_revision]. repeat (split; [assumption|]). intros k' v' H.
        destruct (Hc _ _ (Hi _ _ H)) as (n & o & -> & Hn). exists (AGet k r :: n), o. split; [reflexivity|].
        intros ? ? ? [Hx|Hx]; [discriminate|eauto]. }
      destruct (N.eqb_spec (ac_revision a) r) as [<-|Er].
      + destruct (get_correct (ac_cache a) k I) as [(Hn & ->)|(v & c' & Hin & -> & I' & Hm' & Hl' & Hc')].
        * eexists. split; [reflexivity|]. apply W; auto.
        * eexists. split; [reflexivity|]. apply W; auto; try lia; try congruence. intros k' v' H. rewrite Hc' in H.
          destruct H as [[= <- <-]|H]; [exact Hin|]. apply drop_in in H. tauto.
      + exists a. split; [reflexivity|]. destruct a as [c rv]. apply W; auto.
  Qed.

  Lemma arun_inv cap a h ops : ainv cap a h -> exists a', arun key_dec a ops = Some a' /\ ainv cap a' (rev ops ++ h).
  Proof.
    revert a h. induction ops as [|o t IH]; intros a h H; cbn; [eauto|]. destruct (astep_inv cap a h o H) as (a' & -> & H').
    destruct (IH _ _ H') as (a'' & -> & H''). exists a''. split; [reflexivity|]. now rewrite <- app_assoc.
  Qed.
  Lemma ainv_new cap : ainv cap (acache_new cap) [].
  Proof. unfold ainv, acache_new. cbn. split; [apply inv_new|]. repeat split; [lia|]. intros ? ? []. Qed.

  Lemma acache_total cap (ops : list (aop K V)) : exists a, arun key_dec (acache_new cap) ops = Some a /\ (lru_size (ac_cache a) <= cap)%nat.
  Proof.
    destruct (arun_inv cap _ [] ops (ainv_new cap)) as (a & H & (I & _ & Hl & _)). exists a. split; [exact H|]. unfold lru_size.
    destruct I as (_ & _ & _ & _ & _ & ->). exact Hl.
  Qed.

  Lemma acache_get_total cap (ops : list (aop K V)) a k r : arun key_dec (acache_new cap) ops = Some a -> exists x a', acache_get key_dec a k r = Some (x, a').
  Proof.
    intros H. destruct (arun_inv cap _ [] ops (ainv_new cap)) as (b & Hb & Gb). rewrite H in Hb. injection Hb as <-.
    destruct Gb as (I & _). unfold acache_get. destruct (N.eqb_spec (ac_revision a) r); [|eauto].
    destruct (get_correct (ac_cache a) k I) as [(Hn & ->)|(v & c' & Hin & -> & _)]; eauto.
  Qed.

  Lemma acache_sound cap (ops : list (aop K V)) a k r v a' :
    arun key_dec (acache_new cap) ops = Some a -> acache_get key_dec a k r = Some (Some v, a') ->
    exists older newer, ops = older ++ APut k v r :: newer /\
      forall k' v' r', In (APut k' v' r') newer -> k' <> k /\ r' = r.
  Proof.
    intros H Hg. destruct (arun_inv cap _ [] ops (ainv_new cap)) as (b & Hb & Gb). rewrite H in Hb. injection Hb as <-.
    destruct Gb as (I & Hm & Hl & Hc). rewrite app_nil_r in Hc. unfold acache_get in Hg.
    destruct (N.eqb_spec (ac_revision a) r) as [<-|Er]; [|discriminate].
    destruct (get_correct (ac_cache a) k I) as [(Hn & E)|(x & c' & Hin & E & _)]; rewrite E in Hg; [discriminate|]. injection Hg as -> _.
    destruct (Hc _ _ Hin) as (n & o & E' & Hn). exists (rev o), (rev n). split.
    - apply (f_equal (@rev _)) in E'. rewrite rev_involutive, rev_app_distr in E'. cbn in E'. rewrite <- app_assoc in E'. exact E'.
    - intros k' v' r' Hi. apply in_rev in Hi. eauto.
  Qed.

  Lemma acache_put_get cap (ops : list (aop K V)) a k v r : (0 < cap)%nat -> arun key_dec (acache_new cap) (ops ++ [APut k v r]) = Some a ->
    exists a', acache_get key_dec a k r = Some (Some v, a').
  Proof.
    intros Hcap H. destruct (arun_inv cap _ [] ops (ainv_new cap)) as (b & Hb & (I & Hm & Hl & Hc)).
    assert (Ha : forall (x : acache K V) ops1 ops2, arun key_dec x (ops1 ++ ops2) = match arun key_dec x ops1 with Some y => arun key_dec y ops2 | None => None end).
    { intros x o1. revert x. induction o1 as [|o t IH]; intros x o2; cbn; [reflexivity|]. destruct (astep key_dec x o); [apply IH|reflexivity]. }
    rewrite Ha, Hb in H. cbn [arun astep] in H. unfold acache_put in H.
    set (c0 := if negb (ac_revision b =? r) then lru_clear (ac_cache b) else ac_cache b) in H.
    assert (I0 : inv c0 /\ max_size c0 = cap /\ (length (items c0) <= cap)%nat).
    { unfold c0. destruct (negb _); [split; [now apply inv_clear|]; cbn; split; [exact Hm|lia]|auto]. }
    destruct I0 as (I0 & Hm0 & Hl0). destruct (put_correct c0 k v I0) as (c' & E & I' & Hm' & Hl' & Hc'); [lia|]. rewrite E in H.
    injection H as <-. unfold acache_get. cbn [ac_revision ac_cache]. rewrite N.eqb_refl.
    assert (Hin : In (k, v) (content c')).
    { rewrite Hc', Hm0. destruct cap; [lia|]. rewrite firstn_cons. now left. }
    destruct (get_correct c' k I') as [(Hn & _)|(x & c'' & Hx & -> & _)].
    - exfalso. apply Hn. apply in_map_iff. exists (k, v). auto.
    - destruct I' as (_ & _ & _ & I4 & _). exists (mkACache c'' r). do 2 f_equal. 
      rewrite Hc', Hm0 in Hx. destruct cap as [|n]; [lia|]. rewrite firstn_cons in Hx. destruct Hx as [[= ->]|Hx]; [reflexivity|].
      assert (Hx' : In (k, x) (drop k (content c0))) by (rewrite <- (firstn_skipn n); apply in_or_app; now left).
      apply drop_in in Hx' as [_ Hx']. now cbn in Hx'.
  Qed.

  (** A get for another revision never finds anything and changes nothing. *)
  Lemma acache_get_other (a : acache K V) k r : ac_revision a <> r -> acache_get key_dec a k r = Some (None, a).
  Proof. intros H. unfold acache_get. destruct (N.eqb_spec (ac_revision a) r); [congruence|reflexivity]. Qed.
End Proofs.
