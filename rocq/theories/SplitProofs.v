(** Independent units: a batch as a list of independent copies of one unit, redrawing the selected
    units, the average and the population variance of independent copies. *)
From Coq Require Import List Arith ZArith Bool String Reals Lra Lia.
From Verif Require Import PyBase Num NumOps DataModel TabModel TabSpec LawSpec LawProofs ScoreSpec ScoreProofs3 ScoreProofs6.
Import ListNotations.
Open Scope nat_scope.
Open Scope list_scope.

(** ** pushing laws forward *)
Definition pushes {A B} (d : law A) (f : A -> B) (e : law B) : Prop := forall H, mean d (fun a => H (f a)) = mean e H.

Lemma pushes_tapes {A B} (d : law A) (f : A -> B) (e : law B) : pushes d f e -> forall n, pushes (tapes d n) (map f) (tapes e n).
Proof.
  intros Hp n. induction n as [|n IH]; intro H; [reflexivity|]. rewrite !mean_tapes_S.
  transitivity (mean d (fun a => mean (tapes e n) (fun l => H (f a :: l)))); [|exact (Hp (fun b => mean (tapes e n) (fun l => H (b :: l))))].
  apply mean_ext. intro a. exact (IH (fun l => H (f a :: l))).
Qed.

Lemma mean_flat {A B C} (c : A -> B -> C) (d : law A) (e : law B) H :
  mean (flat_map (fun ap => map (fun bq => (c (fst ap) (fst bq), (snd ap * snd bq)%R)) e) d) H =
  mean d (fun a => mean e (fun b => H (c a b))).
Proof.
  induction d as [|(a, p) d IH]; cbn [flat_map mean fst snd]; [reflexivity|]. rewrite mean_app, IH. f_equal.
  clear. induction e as [|(b, q) e IH]; cbn [map mean fst snd]; [lra|]. rewrite IH. lra.
Qed.

(** ** the units of a batch *)
Section Units.
  Context {W : Type} (w0 : W) (seeds : law W).
  Definition units_of (n : nat) (g : list (list W)) : list (list (list W)) := map (fun u => of_unit w0 u g) (seq 0 n).
  Fixpoint zip_cons {A} (a : list A) (b : list (list A)) : list (list A) :=
    match a, b with x :: a', y :: b' => (x :: y) :: zip_cons a' b' | _, _ => [] end.

  Lemma units_cons n ws g : List.length ws = n -> units_of n (ws :: g) = zip_cons (map (fun w => [w]) ws) (units_of n g).
  Proof.
    unfold units_of. intro Hl.
    enough (H : forall a, map (fun u => [nth (u - a) ws w0] :: of_unit w0 u g) (seq a n) =
      zip_cons (map (fun w => [w]) ws) (map (fun u => of_unit w0 u g) (seq a n))).
    { specialize (H 0). rewrite <- H. apply map_ext_in. intros u _. unfold of_unit. cbn [map]. now rewrite Nat.sub_0_r. }
    revert ws Hl. induction n as [|n IH]; intros [|w ws] Hl a; try discriminate Hl; [reflexivity|].
    cbn [seq map zip_cons]. rewrite Nat.sub_diag. f_equal. rewrite <- (IH ws) by now injection Hl. apply map_ext_in.
    intros u Hu. apply in_seq in Hu. replace (u - a) with (S (u - S a)) by lia. reflexivity.
  Qed.
  Lemma zip_law (D : law (list (list W))) n : forall H,
    mean (tapes seeds n) (fun ws => mean (tapes D n) (fun l => H (zip_cons (map (fun w => [w]) ws) l))) =
    mean (tapes (flat_map (fun wp => map (fun tq => (fst wp :: fst tq, (snd wp * snd tq)%R)) D) (tapes seeds 1)) n) H.
  Proof.
    induction n as [|n IH]; intro H; [cbn [tapes mean map zip_cons]; lra|].
    set (E := flat_map _ _) in *. rewrite !mean_tapes_S.
    assert (HE : forall F, mean E F = mean seeds (fun w => mean D (fun h => F ([w] :: h)))).
    { intro F. unfold E. rewrite (mean_flat cons). rewrite (tape1 seeds). apply mean_ext. intro w. reflexivity. }
    rewrite HE. apply mean_ext. intro w.
    rewrite (mean_ext (tapes seeds n) _ (fun ws => mean D (fun h => mean (tapes D n) (fun l =>
      H (([w] :: h) :: zip_cons (map (fun w => [w]) ws) l))))).
    - rewrite mean_swap. apply mean_ext. intro h. exact (IH (fun l => H (([w] :: h) :: l))).
    - intro ws. rewrite mean_tapes_S. reflexivity.
  Qed.
  Lemma units_law n k : pushes (unit_tapes seeds n k) (units_of n) (tapes (unit_tapes seeds 1 k) n).
  Proof.
    induction k as [|k IH]; intro H.
    - unfold unit_tapes. cbn [tapes mean]. revert H. unfold units_of. generalize 0. induction n as [|n IHn]; intros a H; [reflexivity|].
      rewrite mean_tapes_S. cbn [mean]. rewrite <- (IHn (S a) (fun l => H ([] :: l))). cbn [seq map].
      change (of_unit w0 a []) with (@nil (list W)). lra.
    - unfold unit_tapes in *. rewrite mean_tapes_S.
      transitivity (mean (tapes seeds n) (fun ws => mean (tapes (tapes (tapes seeds 1) k) n) (fun l => H (zip_cons (map (fun w => [w]) ws) l)))).
      + apply mean_ext_in. intros ws p Hin. rewrite <- (IH (fun l => H (zip_cons (map (fun w => [w]) ws) l))).
        apply mean_ext. intro g. now rewrite units_cons by exact (tapes_length seeds n ws p Hin).
      + rewrite zip_law. reflexivity.
  Qed.
End Units.

(** ** drawing the selected units again *)
Section Select.
  Context {A : Type} (D : law A).
  Hypothesis HD : is_law D.
  Definition chosen (m : list bool) : nat := List.length (filter (fun b => b) m).

  Lemma tapes_app a b H : mean (tapes D a) (fun l => mean (tapes D b) (fun r => H (l ++ r))) = mean (tapes D (a + b)) H.
  Proof.
    revert H. induction a as [|a IH]; intro H; cbn [Nat.add]; [cbn [tapes mean app]; rewrite Rmult_1_l, Rplus_0_r; reflexivity|].
    rewrite !mean_tapes_S. apply mean_ext. intro x. exact (IH (fun l => H (x :: l))).
  Qed.
  Lemma select_law m : forall H,
    mean (tapes D (List.length m)) (fun us => H (select (map negb m) us) (select m us)) =
    mean (tapes D (List.length m)) (fun us => mean (tapes D (chosen m)) (fun b => H (select (map negb m) us) b)).
  Proof.
    induction m as [|b m IH]; intro H; [cbn [List.length chosen filter tapes mean map select]; lra|].
    cbn [List.length]. rewrite !mean_tapes_S. destruct b; unfold chosen; cbn [filter List.length map negb select]; fold (chosen m).
    - transitivity (mean D (fun a => mean (tapes D (List.length m)) (fun us => mean (tapes D (chosen m)) (fun b => H (select (map negb m) us) (a :: b))))).
      + apply mean_ext. intro a. exact (IH (fun p q => H p (a :: q))).
      + rewrite mean_const by apply HD. rewrite mean_swap. apply mean_ext. intro us. now rewrite mean_tapes_S.
    - apply mean_ext. intro a. exact (IH (fun p q => H (a :: p) q)).
  Qed.

  (** ... in several batches *)
  Fixpoint firsts (ms : list (list bool)) (uss : list (list A)) : list (list A) :=
    match ms, uss with m :: ms', us :: uss' => select (map negb m) us :: firsts ms' uss' | _, _ => [] end.
  Fixpoint pieces (ms : list (list bool)) (uss : list (list A)) : list (list A) :=
    match ms, uss with m :: ms', us :: uss' => select m us :: pieces ms' uss' | _, _ => [] end.
  Definition seconds (ms : list (list bool)) (uss : list (list A)) : list A := List.concat (pieces ms uss).

  Lemma selects_law n : forall ms, Forall (fun m => List.length m = n) ms -> forall H,
    mean (tapes (tapes D n) (List.length ms)) (fun uss => H (firsts ms uss) (seconds ms uss)) =
    mean (tapes (tapes D n) (List.length ms)) (fun uss => mean (tapes D (list_sum (map chosen ms))) (fun b => H (firsts ms uss) b)).
  Proof.
    induction ms as [|m ms IH]; intros Hm H; [unfold seconds; cbn [List.length tapes mean firsts pieces List.concat map list_sum fold_right]; lra|].
    inversion Hm as [|? ? Hn Hm']; subst. cbn [List.length]. rewrite !mean_tapes_S. unfold seconds. cbn [firsts pieces List.concat].
    change (fun uss => List.concat (pieces ms uss)) with (seconds ms).
    set (DD := tapes (tapes D (List.length m)) (List.length ms)) in *.
    transitivity (mean (tapes D (List.length m)) (fun us => mean DD (fun uss => mean (tapes D (list_sum (map chosen ms))) (fun b =>
      H (select (map negb m) us :: firsts ms uss) (select m us ++ b))))).
    { apply mean_ext. intro us. exact (IH Hm' (fun p q => H (select (map negb m) us :: p) (select m us ++ q))). }
    rewrite (select_law m (fun p q => mean DD (fun uss => mean (tapes D (list_sum (map chosen ms))) (fun b =>
      H (p :: firsts ms uss) (q ++ b))))).
    apply mean_ext. intro us. rewrite mean_swap. apply mean_ext. intro uss.
    rewrite (tapes_app (chosen m) _ (fun b => H (select (map negb m) us :: firsts ms uss) b)). reflexivity.
  Qed.

  (** the last entries *)
  Lemma skip_law a b H : mean (tapes D (a + b)) (fun l => H (skipn a l)) = mean (tapes D b) H.
  Proof.
    induction a as [|a IH]; [reflexivity|]. cbn [Nat.add]. rewrite mean_tapes_S. cbn [skipn]. rewrite IH. apply mean_const, HD.
  Qed.

  (** ** averages and population variances of independent copies *)
  Definition pvar (l : list R) : R := average (map (fun r => (r - average l) ^ 2)%R l).
  Lemma rsum_tapes F n : mean (tapes D n) (fun l => rsum (map F l)) = (INR n * mean D F)%R.
  Proof.
    induction n as [|n IH]; [cbn; lra|]. rewrite mean_tapes_S. cbn [map rsum].
    rewrite (mean_ext D _ (fun a => (F a + INR n * mean D F)%R)).
    - rewrite mean_plus, S_INR, (mean_const D (INR n * mean D F)%R) by apply HD. lra.
    - intro a. rewrite mean_plus, IH, (mean_const (tapes D n)) by apply (tapes_law D n HD). lra.
  Qed.
  Lemma average_tapes F n : 1 <= n -> mean (tapes D n) (fun l => average (map F l)) = mean D F.
  Proof.
    intro Hn. rewrite (mean_ext_in _ _ (fun l => (rsum (map F l) * / INR n)%R)).
    - rewrite mean_scal_r, rsum_tapes. field. apply not_0_INR. lia.
    - intros l p Hin. unfold average. now rewrite map_length, (tapes_length D n l p Hin).
  Qed.
  Lemma square_tapes F n : mean D F = 0%R ->
    mean (tapes D n) (fun l => (rsum (map F l) ^ 2)%R) = (INR n * mean D (fun a => F a ^ 2))%R.
  Proof.
    intro H0. induction n as [|n IH]; [cbn; lra|]. rewrite mean_tapes_S. cbn [map rsum].
    rewrite (mean_ext D _ (fun a => (F a ^ 2 + INR n * mean D (fun a => F a ^ 2))%R)).
    - rewrite mean_plus, S_INR, (mean_const D (INR n * _)%R) by apply HD. lra.
    - intro a. rewrite (mean_ext (tapes D n) _ (fun l => (F a ^ 2 + (2 * F a * rsum (map F l) + rsum (map F l) ^ 2))%R)) by (intro; lra).
      rewrite !mean_plus, IH, mean_scal, rsum_tapes, H0, (mean_const (tapes D n)) by apply (tapes_law D n HD). lra.
  Qed.
  Lemma rsum_centre (l : list R) c : rsum (map (fun r => (r - c) ^ 2)%R l) =
    (rsum (map (fun r => r ^ 2)%R l) - 2 * c * rsum l + INR (List.length l) * c ^ 2)%R.
  Proof. induction l as [|a l IH]; [cbn; lra|]. cbn [map rsum List.length]. rewrite IH, S_INR. lra. Qed.
  Lemma pvar_eq (l : list R) : l <> [] -> pvar l = (average (map (fun r => r ^ 2)%R l) - average l ^ 2)%R.
  Proof.
    intro Hl. unfold pvar. unfold average at 1. rewrite map_length, rsum_centre. unfold average. rewrite map_length.
    field. apply not_0_INR. destruct l; [congruence|discriminate].
  Qed.
  Lemma pvar_shift (l : list R) c : l <> [] -> pvar (map (fun r => (r - c)%R) l) = pvar l.
  Proof.
    intro Hl. assert (Hn : INR (List.length l) <> 0%R) by (apply not_0_INR; destruct l; [congruence|discriminate]).
    assert (Ha : average (map (fun r => (r - c)%R) l) = (average l - c)%R).
    { unfold average. rewrite map_length. enough (E : rsum (map (fun r => (r - c)%R) l) = (rsum l - INR (List.length l) * c)%R) by (rewrite E; now field).
      clear. induction l as [|a l IH]; [cbn; lra|]. cbn [map rsum List.length]. rewrite IH, S_INR. lra. }
    unfold pvar. rewrite Ha, map_map. f_equal. apply map_ext. intro r. f_equal. lra.
  Qed.
  Lemma pvar_tapes F n : 1 <= n ->
    mean (tapes D n) (fun l => pvar (map F l)) = ((1 - 1 / INR n) * mean D (fun a => (F a - mean D F) ^ 2))%R.
  Proof.
    intro Hn. assert (Hn' : INR n <> 0%R) by (apply not_0_INR; lia). set (c := mean D F). set (F0 := fun a => (F a - c)%R).
    assert (H0 : mean D F0 = 0%R).
    { unfold F0. rewrite (mean_ext D _ (fun a => (F a + - c)%R)) by (intro; lra). rewrite mean_plus, mean_const by apply HD. unfold c. lra. }
    rewrite (mean_ext_in _ _ (fun l => (average (map (fun a => F0 a ^ 2)%R l) + (- / INR n ^ 2) * rsum (map F0 l) ^ 2)%R)).
    - rewrite mean_plus, (average_tapes (fun a => (F0 a ^ 2)%R) n Hn), mean_scal, (square_tapes F0 n H0). fold F0. unfold F0. field. exact Hn'.
    - intros l p Hin. pose proof (tapes_length D n l p Hin) as Hl.
      assert (Hne : map F l <> []) by (destruct l; [cbn in Hl; lia|discriminate]).
      rewrite <- (pvar_shift (map F l) c Hne), map_map. fold F0.
      rewrite pvar_eq by (destruct l; [cbn in Hl; lia|discriminate]). rewrite map_map.
      unfold average at 2. rewrite map_length, Hl. field. exact Hn'.
  Qed.
  Lemma average_square F n : 1 <= n ->
    mean (tapes D n) (fun l => ((average (map F l) - mean D F) ^ 2)%R) = (mean D (fun a => ((F a - mean D F) ^ 2)%R) * / INR n)%R.
  Proof.
    intro Hn. assert (Hn' : INR n <> 0%R) by (apply not_0_INR; lia). set (c := mean D F). set (F0 := fun a => (F a - c)%R).
    assert (H0 : mean D F0 = 0%R).
    { unfold F0. rewrite (mean_ext D _ (fun a => (F a + - c)%R)) by (intro; lra). rewrite mean_plus, mean_const by apply HD. unfold c. lra. }
    rewrite (mean_ext_in _ _ (fun l => (rsum (map F0 l) ^ 2 * / INR n ^ 2)%R)).
    - rewrite mean_scal_r, (square_tapes F0 n H0). unfold F0. field. exact Hn'.
    - intros l p Hin. pose proof (tapes_length D n l p Hin) as Hl. unfold average. rewrite map_length, Hl.
      assert (E : rsum (map F0 l) = (rsum (map F l) - INR (List.length l) * c)%R).
      { unfold F0. clear. induction l as [|a l IH]; [cbn; lra|]. cbn [map rsum List.length]. rewrite IH, S_INR. lra. }
      rewrite E, Hl. field. exact Hn'.
  Qed.
End Select.
