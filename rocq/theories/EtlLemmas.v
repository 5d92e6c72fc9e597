(** Final forms and cases for the collector. *)
From Coq Require Import Permutation Sorting.Sorted.
From Verif Require Import Base BaseFacts DbTable DbModel EtlModel EtlSpec EtlProofs.

Lemma new_holds limit : holds (new_collector limit) [].
Proof. exists []. repeat split. constructor. Qed.
Lemma load_all es : Forall fits es -> Forall (fun e => fst e <> [] \/ snd e <> []) es -> total_size es < 2 ^ 64 ->
  exists l, in_order l /\ Permutation l es /\ forall limit pick fuel, least_first pick -> (length es <= fuel)%nat ->
    exists c, load pick fuel (fold_left collect es (new_collector limit)) = Done (l, c).
Proof.
  intros F Ne B. exists (sort es). split; [apply sort_sorted|]. split; [apply sort_perm|]. intros limit pick fuel P Hf.
  assert (Ne' : Forall nonempty es).
  { eapply Forall_impl; [|exact Ne]. intros [k v] X. unfold nonempty, entry_size, blen. cbn [fst snd] in *. destruct X as [X|X]; [destruct k|destruct v]; try (now contradiction X); cbn [length]; lia. }
  assert (L : N.of_nat (length es) < 2 ^ 64) by (rewrite total_weight in B; lia).
  destruct (collects_hold es (new_collector limit) [] (new_holds limit) Ne' B L) as (H & Z & _). cbn [app] in H.
  destruct (load_holds pick P fuel (fold_left collect es (new_collector limit)) es H) as (c & E & _); [|exact Ne'|exact F|exact B|exact Hf|now exists c].
  rewrite Z. cbn [new_collector c_size]. intros X. destruct es; [reflexivity|]. cbn [length] in X. lia.
Qed.

(** *** Into a table *)
Lemma put_all_ordered l : forall t, ordered t -> ordered (put_all t l).
Proof. induction l as [|e l IH]; intros t O; [exact O|]. cbn [put_all fold_left]. apply IH. now apply upsert_ordered. Qed.
Lemma put_all_other l : forall t k, ordered t -> (forall v, ~ In (k, v) l) -> lookup (put_all t l) k = lookup t k.
Proof.
  induction l as [|[k0 v0] l IH]; intros t k O N; [reflexivity|]. cbn [put_all fold_left fst snd]. change (lookup (put_all (upsert t k0 v0) l) k = lookup t k). rewrite IH; [|now apply upsert_ordered|intros v I; apply (N v); now right]. rewrite lookup_upsert by exact O. destruct (eqb_spec k k0) as [ -> |]; [|reflexivity]. exfalso. apply (N v0). now left.
Qed.
Lemma lt_same k v w : pair_lt (k, v) (k, w) = lex_lt v w.
Proof. unfold pair_lt. cbn [fst snd]. rewrite eqb_refl. now rewrite lex_lt_irrefl. Qed.
Lemma put_all_last l : forall t k v, ordered t -> in_order l -> In (k, v) l -> (forall w, In (k, w) l -> lex_lt v w = false) -> lookup (put_all t l) k = Some v.
Proof.
  induction l as [|[k0 v0] l IH]; intros t k v O S I M; [destruct I|]. apply sorted_cons_inv in S as (S & F). cbn [put_all fold_left fst snd]. change (lookup (put_all (upsert t k0 v0) l) k = Some v). pose proof (upsert_ordered t k0 v0 O) as O'.
  destruct (in_dec entry_dec (k, v) l) as [J|J]; [apply IH; auto; intros w Iw; apply M; now right|]. destruct I as [E|I]; [|contradiction]. injection E as -> ->.
  rewrite put_all_other; [rewrite lookup_upsert by exact O; now rewrite eqb_refl|exact O'|]. intros w Iw. apply J.
  assert (X1 : lex_lt v w = false) by (apply M; now right). assert (X2 : lex_lt w v = false) by (rewrite <- (lt_same k); now apply (F (k, w))).
  destruct (lex_cmp v w) as [X|[X|X]]; try congruence. now rewrite X.
Qed.
Lemma load_table es limit pick fuel l c t : Forall fits es -> Forall (fun e => fst e <> [] \/ snd e <> []) es -> total_size es < 2 ^ 64 -> least_first pick -> (length es <= fuel)%nat ->
  load pick fuel (fold_left collect es (new_collector limit)) = Done (l, c) -> ordered t ->
  ordered (put_all t l) /\ (forall k v, In (k, v) es -> (forall w, In (k, w) es -> lex_lt v w = false) -> lookup (put_all t l) k = Some v)
  /\ (forall k, (forall v, ~ In (k, v) es) -> lookup (put_all t l) k = lookup t k).
Proof.
  intros F Ne B P Hf E O. destruct (load_all es F Ne B) as (l' & S & Pm & H). destruct (H limit pick fuel P Hf) as (c' & E'). rewrite E in E'. apply (f_equal (fun x => match x with Done (a, _) => a | _ => [] end)) in E'. cbn in E'. subst l'.
  split; [now apply put_all_ordered|]. split.
  - intros k v I M. apply put_all_last; [exact O|exact S|now apply (Permutation_in _ (Permutation_sym Pm))|]. intros w Iw. apply M. now apply (Permutation_in _ Pm).
  - intros k N. apply put_all_other; [exact O|]. intros v I. apply (N v). now apply (Permutation_in _ Pm).
Qed.

(** *** Using a collector again *)
Lemma unspilled es : forall c, c_files c = [] -> c_bytes c = weight (c_buffer c) -> weight (c_buffer c) + weight es < c_limit c -> c_limit c <= 2 ^ 64 -> c_files (fold_left collect es c) = [].
Proof.
  induction es as [|e es IH]; intros c Ef Eb L B; [exact Ef|]. cbn [fold_left]. change (weight (e :: es)) with (entry_size e + weight es) in L.
  assert (X : collect c e = mkCollector (c_limit c) (c_buffer c ++ [e]) (c_bytes c + entry_size e) [] ((c_size c + 1) mod 2 ^ 64)).
  { unfold collect. cbn [c_limit c_bytes c_buffer c_files c_size]. rewrite Ef, Eb. rewrite (N.mod_small (weight (c_buffer c) + entry_size e)) by lia. destruct (N.leb_spec (c_limit c) (weight (c_buffer c) + entry_size e)); [lia|reflexivity]. }
  rewrite X. apply IH; cbn [c_files c_bytes c_buffer c_limit]; [reflexivity| | |exact B].
  - rewrite weight_app, Eb. cbn [weight fold_right]. lia.
  - rewrite weight_app. cbn [weight fold_right]. lia.
Qed.
Lemma nonempty_parts es : Forall (fun e => fst e <> [] \/ snd e <> []) es -> Forall nonempty es.
Proof. apply Forall_impl. intros [k v] X. unfold nonempty, entry_size, blen. cbn [fst snd] in *. destruct X as [X|X]; [destruct k|destruct v]; try (now contradiction X); cbn [length]; lia. Qed.
Lemma reuse_memory limit pick fuel es1 es2 l1 c1 : least_first pick -> Forall fits (es1 ++ es2) -> Forall (fun e => fst e <> [] \/ snd e <> []) (es1 ++ es2) -> total_size (es1 ++ es2) < 2 ^ 64 -> (length (es1 ++ es2) <= fuel)%nat ->
  total_size es1 < limit -> limit <= 2 ^ 64 -> load pick fuel (fold_left collect es1 (new_collector limit)) = Done (l1, c1) ->
  exists l2 c2, load pick fuel (fold_left collect es2 c1) = Done (l2, c2) /\ in_order l2 /\ Permutation l2 es2.
Proof.
  intros P F Ne B Hf Lm Lb E. apply nonempty_parts in Ne. apply Forall_app in F as (F1 & F2). apply Forall_app in Ne as (N1 & N2). rewrite total_app in B. rewrite app_length in Hf.
  assert (L1 : N.of_nat (length es1) + N.of_nat (length es2) < 2 ^ 64) by (rewrite !total_weight in B; lia).
  destruct (collects_hold es1 (new_collector limit) [] (new_holds limit) N1) as (H & Z & Lc); [cbn [app]; lia|cbn; lia|]. cbn [app] in H. cbn [new_collector c_size c_limit] in Z, Lc.
  assert (Uf : c_files (fold_left collect es1 (new_collector limit)) = []) by (apply unspilled; [reflexivity|reflexivity|cbn; rewrite total_weight in Lm; lia|exact Lb]).
  destruct (load_holds pick P fuel (fold_left collect es1 (new_collector limit)) es1 H) as (c & E' & A1 & A2 & A3 & A4 & _); [|exact N1|exact F1|lia|lia|].
  { rewrite Z. intros X. destruct es1; [reflexivity|]. cbn [length] in X. lia. }
  rewrite E in E'. assert (c1 = c) by congruence. subst c. destruct (A4 Uf) as (A5 & A6).
  assert (H1 : holds c1 []) by (exists []; rewrite A5, A2, A3; repeat split; constructor).
  destruct (collects_hold es2 c1 [] H1 N2) as (H2 & Z2 & _); [cbn [app]; lia|rewrite A6, Z; lia|]. cbn [app] in H2.
  destruct (load_holds pick P fuel (fold_left collect es2 c1) es2 H2) as (c2 & E2 & _); [|exact N2|exact F2|lia|lia|].
  { rewrite Z2. intros X. destruct es2; [reflexivity|]. cbn [length] in X. lia. }
  exists (sort es2), c2. split; [exact E2|]. split; [apply sort_sorted|apply sort_perm].
Qed.
Lemma collect_files es : forall c f fs, c_files c = f :: fs -> exists fs', c_files (fold_left collect es c) = f :: fs'.
Proof.
  induction es as [|e es IH]; intros c f fs E; [now exists fs|]. cbn [fold_left]. unfold collect at 2. destruct (_ <=? _); [unfold flush_buffer; cbn [c_bytes c_files]; destruct (_ =? _)|]; (eapply IH; cbn [c_files]; rewrite E; reflexivity).
Qed.
Lemma reuse_files limit pick fuel es1 es2 l1 c1 : least_first pick -> Forall fits (es1 ++ es2) -> Forall (fun e => fst e <> [] \/ snd e <> []) (es1 ++ es2) -> total_size (es1 ++ es2) < 2 ^ 64 -> (length (es1 ++ es2) <= fuel)%nat ->
  c_files (fold_left collect es1 (new_collector limit)) <> [] -> es2 <> [] -> load pick fuel (fold_left collect es1 (new_collector limit)) = Done (l1, c1) ->
  load pick fuel (fold_left collect es2 c1) = Undefined.
Proof.
  intros P F Ne B Hf Sp Ne2 E. apply nonempty_parts in Ne. apply Forall_app in F as (F1 & F2). apply Forall_app in Ne as (N1 & N2). rewrite total_app in B. rewrite app_length in Hf.
  assert (L1 : N.of_nat (length es1) + N.of_nat (length es2) < 2 ^ 64) by (rewrite !total_weight in B; lia).
  destruct (collects_hold es1 (new_collector limit) [] (new_holds limit) N1) as (H & Z & Lc); [cbn [app]; lia|cbn; lia|]. cbn [app] in H. cbn [new_collector c_size c_limit] in Z, Lc.
  assert (Hz : c_size (fold_left collect es1 (new_collector limit)) = 0 -> es1 = []) by (rewrite Z; intros X; destruct es1; [reflexivity|]; cbn [length] in X; lia).
  destruct (load_holds pick P fuel (fold_left collect es1 (new_collector limit)) es1 H Hz) as (c & E' & A1 & A2 & A3 & _ & A4); [exact N1|exact F1|lia|lia|].
  rewrite E in E'. assert (c1 = c) by congruence. subst c. assert (Nz : c_size (fold_left collect es1 (new_collector limit)) <> 0) by (intros X; apply Hz in X; subst es1; now apply Sp).
  destruct (A4 Sp Nz) as (n & A5).
  assert (Sz : c_size c1 = 0). { unfold load in E. destruct (N.eqb_spec (c_size (fold_left collect es1 (new_collector limit))) 0); [contradiction|]. destruct (c_files (fold_left collect es1 (new_collector limit))) eqn:X; [contradiction|]. destruct (fill_queue _ _) as [[q f]| |]; try discriminate. cbn [obind] in E. destruct (drain _ _ _ _) as [[l' f']| |]; try discriminate. cbn [obind] in E. assert (Y : c1 = mkCollector (c_limit (flush_buffer (fold_left collect es1 (new_collector limit)))) (c_buffer (flush_buffer (fold_left collect es1 (new_collector limit)))) (c_bytes (flush_buffer (fold_left collect es1 (new_collector limit)))) f' 0) by congruence. rewrite Y. reflexivity. }
  assert (Z2 : c_size (fold_left collect es2 c1) <> 0).
  { assert (forall es c, c_size c + N.of_nat (length es) < 2 ^ 64 -> c_size (fold_left collect es c) = c_size c + N.of_nat (length es)) as Q.
    { clear. induction es as [|e es IH]; intros c L; [cbn; lia|]. cbn [fold_left length] in *. destruct (collect_size c e) as (X & _). rewrite N.mod_small in X by lia. rewrite IH by (rewrite X; lia). rewrite X. lia. }
    rewrite Q by (rewrite Sz; lia). rewrite Sz. destruct es2; [contradiction|]. cbn [length]. lia. }
  destruct (collect_files es2 c1 None (repeat None n) A5) as (fs & E2). unfold load. destruct (N.eqb_spec (c_size (fold_left collect es2 c1)) 0); [contradiction|]. rewrite E2. unfold flush_buffer. destruct (_ =? _); cbn [c_files]; rewrite E2; reflexivity.
Qed.

(** *** A queue *)
Fixpoint least_of (q : list (entry * nat)) : nat :=
  match q with
  | [] => O
  | x :: r => match nth_error r (least_of r) with Some y => if pair_lt (fst y) (fst x) then S (least_of r) else O | None => O end
  end.
Lemma least_of_first : least_first least_of.
Proof.
  intros q. induction q as [|x r IH]; intros N; [now contradiction N|]. cbn [least_of]. destruct r as [|y0 r0]; [exists x; cbn; split; [reflexivity|]; intros y [ <- |[]]; apply pair_lt_irrefl|]. set (r := y0 :: r0) in *. assert (Nr : r <> []) by discriminate. clearbody r. destruct (IH Nr) as (y & E & L). rewrite E. destruct (pair_lt (fst y) (fst x)) eqn:C.
  - exists y. split; [exact E|]. intros z [ <- |Hz]; [|now apply L]. destruct (pair_lt (fst x) (fst y)) eqn:C2; [|reflexivity]. pose proof (pair_lt_trans _ _ _ C C2) as X. now rewrite pair_lt_irrefl in X.
  - exists x. split; [reflexivity|]. intros z [ <- |Hz]; [apply pair_lt_irrefl|]. apply (lt_false_trans (fst x) (fst y) (fst z)); [exact C|now apply L].
Qed.

(** *** Cases *)
Definition case_entries : list entry := [([3], [1]); ([1], [9]); ([2; 1], []); ([1], [4]); ([], [7]); ([3], [1])].
Lemma case_ok : Forall fits case_entries /\ Forall (fun e => fst e <> [] \/ snd e <> []) case_entries /\ total_size case_entries < 2 ^ 64.
Proof. split; [|split; [|reflexivity]]; repeat apply Forall_cons; try apply Forall_nil; unfold fits; cbn [fst snd]; (split; reflexivity) || (left; discriminate) || (right; discriminate). Qed.
Lemma case_load : match load least_of 6 (fold_left collect case_entries (new_collector 4)) with Done (l, c) => l = [([], [7]); ([1], [4]); ([1], [9]); ([2; 1], []); ([3], [1]); ([3], [1])] /\ c_files c = [None; None; None] | _ => False end.
Proof. vm_compute. split; reflexivity. Qed.
Lemma lost : exists es limit, Forall fits es /\ total_size es < 2 ^ 64 /\ match load least_of (length es) (fold_left collect es (new_collector limit)) with Done (l, _) => ~ Permutation l es | _ => False end.
Proof.
  exists [([1], [2]); ([], [])], 1. split; [repeat apply Forall_cons; try apply Forall_nil; split; reflexivity|]. split; [reflexivity|]. vm_compute. intros P. apply Permutation_length in P. discriminate.
Qed.
Lemma case_reuse : match load least_of 2 (fold_left collect [([1], [2])] (new_collector 1)) with Done (_, c) => load least_of 2 (fold_left collect [([3], [4])] c) = Undefined | _ => False end.
Proof. vm_compute. reflexivity. Qed.
