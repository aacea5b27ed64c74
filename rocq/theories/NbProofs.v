(** Lemmas for NbProps.v: order statistics. *)
From Coq Require Import List Arith ZArith Reals Lra Lia Bool Permutation Sorting.Sorted.
From Flocq Require Import Core BinarySingleNaN.
From Verif Require Import PyBase PyLemmas Num NumLemmas BanditModel BanditSpec BanditProofs1 UtilModel PlotModel NbModel NbSpec.
Import ListNotations.
Open Scope nat_scope.

Lemma not_above_total x y : not_above x y \/ not_above y x.
Proof.
  unfold not_above, num. destruct (fisnan x) eqn:Ex; [right; auto|]. destruct (fisnan y) eqn:Ey; [left; auto|].
  destruct (Rle_or_lt (fkey x) (fkey y)); [left|right]; right; repeat split; try assumption; lra.
Qed.
Lemma not_above_trans x y z : not_above x y -> not_above y z -> not_above x z.
Proof.
  unfold not_above. intros [H|(H1 & H2 & H3)] [H'|(H1' & H2' & H3')]; try (left; assumption).
  - unfold num in H1'. congruence.
  - right. repeat split; try assumption; lra.
Qed.
Lemma not_above_refl x : not_above x x.
Proof. destruct (not_above_total x x); assumption. Qed.

Lemma sorts_before_true x y : sorts_before x y = true -> not_above x y.
Proof.
  unfold sorts_before. intros H. apply orb_true_iff in H as [H|H].
  - apply fltb_spec in H as (H1 & H2 & H3). right. repeat split; try assumption; lra.
  - apply andb_true_iff in H as [_ H]. now left.
Qed.
Lemma sorts_before_false x y : sorts_before x y = false -> not_above y x.
Proof.
  unfold sorts_before. intros H. apply orb_false_iff in H as [H1 H2]. unfold not_above, num.
  destruct (fisnan x) eqn:Ex; [now left|]. cbn in H2. right. repeat split; try assumption. apply fltb_num_false; assumption.
Qed.

Lemma insert_perm x l : Permutation (x :: l) (insert_sorted x l).
Proof. induction l as [|y l IH]; cbn [insert_sorted]; [reflexivity|]. destruct (sorts_before y x); [|reflexivity]. rewrite perm_swap. now constructor. Qed.
Lemma np_sort_perm l : Permutation l (np_sort l).
Proof. induction l as [|x l IH]; [reflexivity|]. cbn [np_sort fold_right]. fold (np_sort l). etransitivity; [apply perm_skip, IH|apply insert_perm]. Qed.
Lemma insert_sorted_ok x l : StronglySorted not_above l -> StronglySorted not_above (insert_sorted x l).
Proof.
  induction 1 as [|y l Hs IH Hy]; cbn [insert_sorted]; [repeat constructor|].
  destruct (sorts_before y x) eqn:E.
  - constructor; [exact IH|]. rewrite Forall_forall in *. intros z Hz. apply (Permutation_in _ (Permutation_sym (insert_perm x l))) in Hz.
    destruct Hz as [<-|Hz]; [now apply sorts_before_true|auto].
  - apply sorts_before_false in E. constructor; [now constructor|]. constructor; [exact E|].
    rewrite Forall_forall in *. intros z Hz. eapply not_above_trans; [exact E|auto].
Qed.
Lemma np_sort_sorted l : StronglySorted not_above (np_sort l).
Proof. induction l as [|x l IH]; [constructor|]. cbn [np_sort fold_right]. now apply insert_sorted_ok. Qed.
Lemma np_sort_length l : length (np_sort l) = length l.
Proof. symmetry. apply Permutation_length, np_sort_perm. Qed.

(** a downward closed condition holds exactly at the beginning of a sorted list *)
Lemma sorted_prefix (p : F -> bool) : (forall x y, not_above x y -> p y = true -> p x = true) ->
  forall l, StronglySorted not_above l -> forall m c, nth_error l m = Some c ->
  (p c = true <-> m < length (filter p l)).
Proof.
  intros Hp l. induction 1 as [|y l Hs IH Hy]; intros m c Hm; [destruct m; discriminate|].
  rewrite Forall_forall in Hy. cbn [filter]. destruct m as [|m]; cbn [nth_error] in Hm.
  - injection Hm as <-. destruct (p y) eqn:E; [cbn [length]; split; [lia|reflexivity]|]. split; intros H.
    + discriminate.
    + destruct (filter p l) as [|z r] eqn:Ef; [cbn in H; lia|].
      assert (Hz : In z (filter p l)) by (rewrite Ef; now left). apply filter_In in Hz as [Hz1 Hz2]. exact (eq_trans (eq_sym E) (Hp _ _ (Hy z Hz1) Hz2)).
  - rewrite (IH m c Hm). destruct (p y) eqn:E; cbn [length]; [lia|].
    destruct (filter p l) as [|z r] eqn:Ef; [cbn; lia|]. exfalso.
    assert (Hz : In z (filter p l)) by (rewrite Ef; now left). apply filter_In in Hz as [Hz1 Hz2]. pose proof (Hp _ _ (Hy z Hz1) Hz2). congruence.
Qed.

Lemma filter_perm_length (p : F -> bool) l l' : Permutation l l' -> length (filter p l) = length (filter p l').
Proof. induction 1; cbn [filter]; try congruence; repeat match goal with |- context [p ?a] => destruct (p a) end; cbn [length]; congruence. Qed.

Lemma cutoff_spec vs m c v : nth_error (np_sort vs) m = Some c -> fltb v c = among_lowest m vs v.
Proof.
  intros Hc. unfold among_lowest, numbers, at_most.
  pose proof (np_sort_perm vs) as P.
  assert (Hnum : forall x y, not_above x y -> negb (fisnan y) = true -> negb (fisnan x) = true).
  { intros x y [H|(H1 & _)]; [rewrite H; discriminate|]. intros _. unfold num in H1. now rewrite H1. }
  assert (Hle : forall x y, not_above x y -> fleb y v = true -> fleb x v = true).
  { intros x y Hxy H. apply fleb_spec in H as (H1 & H2 & H3). apply fleb_spec. destruct Hxy as [Hn|(K1 & K2 & K3)]; [unfold num in H1; congruence|].
    repeat split; try assumption; lra. }
  pose proof (sorted_prefix _ Hnum _ (np_sort_sorted vs) m c Hc) as S1.
  pose proof (sorted_prefix _ Hle _ (np_sort_sorted vs) m c Hc) as S2.
  rewrite <- (filter_perm_length _ _ _ P) in S1. rewrite <- (filter_perm_length _ _ _ P) in S2.
  destruct (fisnan v) eqn:Ev; [rewrite fltb_nan_l by exact Ev; now rewrite andb_false_r|]. cbn [negb]. rewrite andb_true_r.
  destruct (fisnan c) eqn:Ec.
  - rewrite fltb_nan_r by exact Ec. destruct (Nat.ltb_spec m (length (filter (fun u => negb (fisnan u)) vs))) as [H|H]; [|reflexivity].
    apply S1 in H. discriminate.
  - assert (H1 : m < length (filter (fun u => negb (fisnan u)) vs)) by (apply S1; reflexivity). apply Nat.ltb_lt in H1. rewrite H1. cbn [andb].
    destruct (Nat.leb_spec (length (filter (fun u => fleb u v) vs)) m) as [H|H].
    + destruct (fleb c v) eqn:E; [exfalso; pose proof (proj1 S2 eq_refl); lia|]. apply fltb_spec. split; [exact Ev|]. split; [exact Ec|].
      destruct (Rlt_or_le (fkey v) (fkey c)) as [|Hk]; [assumption|]. exfalso. assert (fleb c v = true) by (apply fleb_spec; repeat split; assumption). congruence.
    + apply S2 in H. apply fleb_spec in H as (_ & _ & H). apply fltb_num_false; assumption.
Qed.

(** at most [m] values are among the lowest [m] *)
Lemma among_lowest_count m vs : length (filter (among_lowest m vs) vs) <= m.
Proof.
  destruct (filter (among_lowest m vs) vs) as [|v0 rest] eqn:E; [cbn; lia|]. rewrite <- E.
  (* the largest selected value bounds the others *)
  assert (Hmax : forall l, l <> [] -> (forall u, In u l -> num u) -> exists v, In v l /\ forall u, In u l -> fleb u v = true).
  { induction l as [|x l IH]; [congruence|]. intros _ Hn. destruct l as [|y l].
    - exists x. split; [now left|]. intros u [<-|[]]. apply fleb_spec. repeat split; try (apply Hn; now left). lra.
    - destruct IH as (v & Hv & Hall); [discriminate|intros; apply Hn; now right|].
      destruct (Rle_or_lt (fkey x) (fkey v)).
      + exists v. split; [now right|]. intros u [<-|Hu]; [|auto]. apply fleb_spec. repeat split; [apply Hn; now left|apply Hn; now right|assumption].
      + exists x. split; [now left|]. intros u [<-|Hu]; apply fleb_spec; (split; [apply Hn; auto using in_eq, in_cons|split; [apply Hn; now left|]]); [lra|].
        specialize (Hall u Hu). apply fleb_spec in Hall as (_ & _ & ?). lra. }
  destruct (Hmax (filter (among_lowest m vs) vs)) as (v & Hv & Hall).
  - rewrite E. discriminate.
  - intros u Hu. apply filter_In in Hu as [_ Hu]. unfold among_lowest in Hu. apply andb_true_iff in Hu as [Hu _]. apply andb_true_iff in Hu as [_ Hu].
    unfold num. destruct (fisnan u); [discriminate|reflexivity].
  - apply filter_In in Hv as [_ Hv]. unfold among_lowest in Hv. apply andb_true_iff in Hv as [_ Hv]. apply Nat.leb_le in Hv.
    etransitivity; [|exact Hv]. unfold at_most. clear - Hall. revert Hall. generalize (among_lowest m vs) as p. intros p.
    induction vs as [|u vs IH]; cbn [filter]; intros Hall; [lia|]. destruct (p u) eqn:Ep.
    + rewrite (Hall u (or_introl eq_refl)). cbn [length]. apply le_n_S, IH. intros x Hx. apply Hall. now right.
    + destruct (fleb u v); cbn [length]; specialize (IH Hall); lia.
Qed.

Lemma rev_snoc_last {Y} (h : list Y) v : rev (h ++ [v]) = v :: rev h.
Proof. now rewrite rev_app_distr. Qed.

Lemma last_vars bd is vs : last_entries (bd_var bd) is vs -> mapM (last_var bd) is = Ok vs.
Proof.
  induction 1 as [|i v is vs (h & Hh) _ IH]; [reflexivity|]. cbn [mapM]. unfold last_var at 1, by_arm. rewrite Hh. cbn [bind].
  rewrite rev_snoc_last. cbn [bind]. now rewrite IH.
Qed.
Lemma last_entries_length {Y} (hs : list (list Y)) is vs : last_entries hs is vs -> length vs = length is.
Proof. induction 1; cbn; congruence. Qed.

Lemma select_filter {Y} (p : F -> bool) : forall (vs : list F) (is : list Y), length vs = length is ->
  select (map p vs) is = map fst (filter (fun q => p (snd q)) (combine is vs)).
Proof.
  induction vs as [|v vs IH]; intros [|i is] H; try discriminate; [reflexivity|]. cbn [map select combine filter snd].
  destruct (p v); cbn [map fst]; now rewrite IH by (cbn in H; lia).
Qed.
Lemma filter_combine_length {Y} (p : F -> bool) : forall (vs : list F) (is : list Y), length vs = length is ->
  length (filter (fun q => p (snd q)) (combine is vs)) = length (filter p vs).
Proof.
  induction vs as [|v vs IH]; intros [|i is] H; try discriminate; [reflexivity|]. cbn [combine filter snd].
  destruct (p v); cbn [length]; now rewrite IH by (cbn in H; lia).
Qed.

(** positions of a permutation *)
Lemma perm_nth {Y} (l l' : list Y) : Permutation l l' -> exists f, (forall i, i < length l' -> f i < length l) /\
  (forall i j, i < length l' -> j < length l' -> f i = f j -> i = j) /\ (forall i, i < length l' -> nth_error l' i = nth_error l (f i)).
Proof.
  intros P. destruct (proj1 (Permutation_nth_error l l') P) as (Hl & f & Hinj & Hn). exists f.
  assert (Hb : forall i, i < length l' -> f i < length l).
  { intros i Hi. apply nth_error_Some. rewrite <- Hn. apply nth_error_Some. exact Hi. }
  split; [exact Hb|]. split; [|intros i _; apply Hn]. intros i j _ _. apply Hinj.
Qed.
