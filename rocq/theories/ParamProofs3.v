(** Finite populations: integrals over groups; the mean of the doubly robust score and of the
    front-door score. *)
From Coq Require Import List Arith ZArith Reals Bool Lia Lra Permutation.
From Verif Require Import PyBase NumOps TabSpec TabReal ParamModel ParamSpec ParamProofs.
Import ListNotations.
Open Scope R_scope.

Lemma rsum_plus {A} (f g : A -> R) l : rsum (map (fun a => f a + g a) l) = rsum (map f l) + rsum (map g l).
Proof. induction l; cbn; lra. Qed.
Lemma rsum_scale {A} c (f : A -> R) l : rsum (map (fun a => c * f a) l) = c * rsum (map f l).
Proof. induction l; cbn; lra. Qed.
Lemma rsum_ext {A} (f g : A -> R) l : (forall a, In a l -> f a = g a) -> rsum (map f l) = rsum (map g l).
Proof. intros H. f_equal. now apply map_ext_in. Qed.
Lemma rsum_zero {A} (l : list A) : rsum (map (fun _ => 0) l) = 0.
Proof. induction l; cbn; lra. Qed.
Lemma rsum_swap {A B} (f : A -> B -> R) l m :
  rsum (map (fun a => rsum (map (f a) m)) l) = rsum (map (fun b => rsum (map (fun a => f a b) l)) m).
Proof.
  induction l as [|a l IH]; cbn [map rsum]; [now rewrite rsum_zero|]. rewrite IH. symmetry. apply rsum_plus.
Qed.
Lemma pop_mean_map pop f : pop_mean pop (map f pop) = rsum (map (fun a => a_w a * f a) pop).
Proof. unfold pop_mean. now rewrite map2_diag. Qed.

Lemma one_z zs (a : atom) c : NoDup zs -> In (a_z a) zs -> rsum (map (fun z => if has_z z a then c else 0) zs) = c.
Proof.
  induction zs as [|z zs IH]; intros Hd Hi; [destruct Hi|]. inversion Hd as [|? ? Hn Hd']; subst. cbn [map rsum].
  unfold has_z at 1. destruct (z_eq (a_z a) z) as [E|E].
  - rewrite (rsum_ext _ (fun _ => 0)); [rewrite rsum_zero; lra|]. intros z' Hz'. unfold has_z. destruct (z_eq (a_z a) z'); [congruence|reflexivity].
  - destruct Hi as [Hi|Hi]; [congruence|]. rewrite IH by assumption. lra.
Qed.
Lemma rsum_filter {A} (p : A -> bool) f l : rsum (map f (filter p l)) = rsum (map (fun a => if p a then f a else 0) l).
Proof. induction l as [|a l IH]; [reflexivity|]. cbn [filter map rsum]. destruct (p a); cbn [map rsum]; lra. Qed.

Lemma by_z pop ev f :
  integral pop ev f = rsum (map (fun z => integral pop (fun a => ev a && has_z z a) f) (z_values pop)).
Proof.
  unfold integral. rewrite rsum_filter.
  rewrite (rsum_ext (fun z => rsum _) (fun z => rsum (map (fun a => if has_z z a then if ev a then a_w a * f a else 0 else 0) pop)) (z_values pop)).
  2:{ intros z _. rewrite rsum_filter. apply rsum_ext. intros a _. destruct (ev a), (has_z z a); reflexivity. }
  rewrite rsum_swap. apply rsum_ext. intros a Ha. symmetry. apply one_z; [apply NoDup_nodup|].
  apply nodup_In, in_map, Ha.
Qed.
Lemma by_x pop ev f :
  integral pop ev f = integral pop (fun a => has_x true a && ev a) f + integral pop (fun a => has_x false a && ev a) f.
Proof.
  unfold integral. rewrite !rsum_filter, <- rsum_plus. apply rsum_ext. intros a _. unfold has_x.
  destruct (a_x a), (ev a); cbn; lra.
Qed.
Lemma mass_integral pop ev : mass pop ev = integral pop ev (fun _ => 1).
Proof. unfold mass, integral. apply rsum_ext. intros; lra. Qed.
Lemma integral_ext pop ev ev' f : (forall a, ev a = ev' a) -> integral pop ev f = integral pop ev' f.
Proof. intros H. unfold integral. now rewrite (filter_ext _ _ H). Qed.
Lemma integral_affine pop ev f c1 c2 : (forall a, In a pop -> ev a = true -> f a = c1 + c2 * a_y a) ->
  integral pop ev f = c1 * mass pop ev + c2 * integral pop ev a_y.
Proof.
  intros H. rewrite mass_integral. unfold integral. rewrite <- !rsum_scale, <- rsum_plus. apply rsum_ext.
  intros a Ha. apply filter_In in Ha as [Ha He]. rewrite H by assumption. lra.
Qed.
Lemma mean_by_z pop f : rsum (map (fun a => a_w a * f a) pop) = rsum (map (fun z => integral pop (has_z z) f) (z_values pop)).
Proof.
  replace (rsum (map (fun a => a_w a * f a) pop)) with (integral pop (fun _ => true) f).
  2:{ unfold integral. rewrite rsum_filter. reflexivity. }
  rewrite by_z. apply rsum_ext. intros z _. now apply integral_ext.
Qed.
Lemma p_z_split pop z : p_z pop z = p_xz pop true z + p_xz pop false z.
Proof. unfold p_z, p_xz. rewrite !mass_integral. apply by_x. Qed.
Lemma p_x_split pop x : p_x pop x = rsum (map (p_xz pop x) (z_values pop)).
Proof. unfold p_x, p_xz. rewrite mass_integral, by_z. apply rsum_ext. intros. now rewrite mass_integral. Qed.
Lemma has_z_true z a : has_z z a = true -> a_z a = z.
Proof. unfold has_z. now destruct (z_eq (a_z a) z). Qed.
Lemma has_x_true x a : has_x x a = true -> a_x a = x.
Proof. unfold has_x. apply eqb_prop. Qed.

Lemma total_x pop : rsum (map a_w pop) = p_x pop true + p_x pop false.
Proof.
  unfold p_x, mass. rewrite !rsum_filter, <- rsum_plus. apply rsum_ext. intros a _. unfold has_x. destruct (a_x a); cbn; lra.
Qed.
Lemma p_x_pos pop : population pop -> forall x, 0 < p_x pop x.
Proof.
  intros (Hw & Hs & Hp) x. rewrite p_x_split.
  destruct (z_values pop) as [|z zs] eqn:E.
  - destruct pop as [|a pop]; [cbn in Hs; lra|]. exfalso.
    assert (Hi : In (a_z a) (z_values (a :: pop))) by (apply nodup_In; now left). rewrite E in Hi. destruct Hi.
  - cbn [map rsum]. pose proof (Hp z x (or_introl eq_refl)).
    assert (0 <= rsum (map (p_xz pop x) zs)).
    { apply rsum_nonneg. intros r Hr. apply in_map_iff in Hr as (z' & <- & Hz'). left. apply Hp. now right. }
    lra.
Qed.

(** the mean of the doubly robust score, per covariate value *)
Lemma dr_group pop z mu e : In z (z_values pop) -> 0 < e < 1 ->
  integral pop (has_z z) (fun a => dr_score (fun b => mu b (a_z a)) (e) (a_x a) (a_y a))
  = p_z pop z * (mu true z - mu false z)
    + (integral pop (fun a => has_x true a && has_z z a) a_y - mu true z * p_xz pop true z) / e
    - (integral pop (fun a => has_x false a && has_z z a) a_y - mu false z * p_xz pop false z) / (1 - e).
Proof.
  intros Hz He. rewrite by_x.
  rewrite (integral_affine pop (fun a => has_x true a && has_z z a) _ (mu true z - mu false z - mu true z / e) (1 / e)).
  2:{ intros a _ H. apply andb_true_iff in H as [H1 H2]. apply has_z_true in H2. apply has_x_true in H1. rewrite H1, H2. unfold dr_score. field. lra. }
  rewrite (integral_affine pop (fun a => has_x false a && has_z z a) _ (mu true z - mu false z + mu false z / (1 - e)) (- 1 / (1 - e))).
  2:{ intros a _ H. apply andb_true_iff in H as [H1 H2]. apply has_z_true in H2. apply has_x_true in H1. rewrite H1, H2. unfold dr_score. field. lra. }
  rewrite p_z_split. unfold p_xz. field. lra.
Qed.

Lemma dr_mean pop mu e : population pop -> (forall z, In z (z_values pop) -> 0 < e z < 1) ->
  (forall z x, In z (z_values pop) -> mu x z = e_y pop x z) \/ (forall z, In z (z_values pop) -> e z = propensity pop z) ->
  rsum (map (fun a => a_w a * dr_score (fun b => mu b (a_z a)) (e (a_z a)) (a_x a) (a_y a)) pop) = ate_backdoor pop.
Proof.
  intros (Hw & Hs & Hp) He Hor. rewrite mean_by_z. apply rsum_ext. intros z Hz.
  transitivity (integral pop (has_z z) (fun a => dr_score (fun b => mu b (a_z a)) (e z) (a_x a) (a_y a))).
  { unfold integral. apply rsum_ext. intros a Ha. apply filter_In in Ha as [_ Ha]. apply has_z_true in Ha. now rewrite Ha. }
  rewrite (dr_group pop z mu (e z) Hz (He z Hz)). pose proof (Hp z true Hz) as P1. pose proof (Hp z false Hz) as P0. pose proof (He z Hz) as Ez.
  destruct Hor as [Hm|Hm].
  - rewrite !Hm by assumption. unfold e_y. field. repeat split; lra.
  - rewrite (Hm z Hz) in *. unfold propensity, e_y in *. rewrite p_z_split in *. field. repeat split; lra.
Qed.

(** the mean of the front-door score with the true nuisances *)
Lemma fd_mean pop f3 : population pop ->
  let dp z := p_z_given pop true z - p_z_given pop false z in
  let f1 x := rsum (map (fun z' => e_y pop x z' * dp z') (z_values pop)) in
  let f2 z := p_x pop true * e_y pop true z + p_x pop false * e_y pop false z in
  rsum (map (fun a => a_w a * fd_score_spec (a_y a) (e_y pop (a_x a) (a_z a)) (p_z_given pop true (a_z a)) (p_z_given pop false (a_z a))
                        (p_z_given pop (a_x a) (a_z a)) (f1 (a_x a)) (f2 (a_z a)) (f3 (a_z a)) (a_x a) (p_x pop true)) pop)
  = 2 * ate_frontdoor pop - (rsum (map (fun z => p_z_given pop true z * f3 z) (z_values pop))
                             - rsum (map (fun z => p_z_given pop false z * f3 z) (z_values pop))).
Proof.
  intros Hpop dp f1 f2. pose proof (p_x_pos pop Hpop) as Px. destruct Hpop as (Hw & Hs & Hp).
  assert (P01 : p_x pop true + p_x pop false = 1) by now rewrite <- total_x.
  pose proof (Px true) as Px1. pose proof (Px false) as Px0.
  assert (G : forall z, In z (z_values pop) ->
    integral pop (has_z z) (fun a => fd_score_spec (a_y a) (e_y pop (a_x a) (a_z a)) (p_z_given pop true (a_z a)) (p_z_given pop false (a_z a))
                        (p_z_given pop (a_x a) (a_z a)) (f1 (a_x a)) (f2 (a_z a)) (f3 (a_z a)) (a_x a) (p_x pop true))
    = (f1 true * p_xz pop true z + f1 false * p_xz pop false z) + dp z * f2 z - dp z * f3 z).
  { intros z Hz. rewrite by_x.
    rewrite (integral_affine pop (fun a => has_x true a && has_z z a) _
               (- e_y pop true z * (dp z / p_z_given pop true z) + f1 true + 1 / p_x pop true * (f2 z - f3 z)) (dp z / p_z_given pop true z)).
    2:{ intros a _ H. apply andb_true_iff in H as [H1 H2]. apply has_z_true in H2. apply has_x_true in H1. rewrite H1, H2. unfold fd_score_spec, dp. lra. }
    rewrite (integral_affine pop (fun a => has_x false a && has_z z a) _
               (- e_y pop false z * (dp z / p_z_given pop false z) + f1 false + - (1 / (1 - p_x pop true)) * (f2 z - f3 z)) (dp z / p_z_given pop false z)).
    2:{ intros a _ H. apply andb_true_iff in H as [H1 H2]. apply has_z_true in H2. apply has_x_true in H1. rewrite H1, H2. unfold fd_score_spec, dp. lra. }
    change (mass pop (fun a => has_x true a && has_z z a)) with (p_xz pop true z).
    change (mass pop (fun a => has_x false a && has_z z a)) with (p_xz pop false z).
    pose proof (Hp z true Hz) as Q1. pose proof (Hp z false Hz) as Q0.
    assert (Y : forall x, integral pop (fun a => has_x x a && has_z z a) a_y = e_y pop x z * p_xz pop x z).
    { intros x. unfold e_y. field. pose proof (Hp z x Hz). lra. }
    rewrite !Y. replace (1 - p_x pop true) with (p_x pop false) by lra.
    unfold dp. generalize (f1 true) (f1 false) (f2 z) (f3 z) (e_y pop true z) (e_y pop false z). intros. unfold p_z_given. field. repeat split; lra. }
  rewrite mean_by_z, (rsum_ext _ _ _ G). clear G.
  rewrite (rsum_ext _ (fun z => (f1 true * p_xz pop true z + f1 false * p_xz pop false z) + (dp z * f2 z + -1 * (dp z * f3 z)))) by (intros; lra).
  rewrite rsum_plus, rsum_plus, rsum_plus, !rsum_scale, <- !p_x_split.
  assert (E1 : f1 true * p_x pop true + f1 false * p_x pop false = ate_frontdoor pop).
  { unfold f1. rewrite !(Rmult_comm (rsum _)), <- !rsum_scale, <- rsum_plus. apply rsum_ext. intros z _. unfold dp. lra. }
  assert (E2 : rsum (map (fun z => dp z * f2 z) (z_values pop)) = ate_frontdoor pop) by reflexivity.
  assert (E3 : rsum (map (fun z => dp z * f3 z) (z_values pop)) =
     rsum (map (fun z => p_z_given pop true z * f3 z) (z_values pop)) - rsum (map (fun z => p_z_given pop false z * f3 z) (z_values pop))).
  { unfold Rminus. replace (- rsum (map (fun z => p_z_given pop false z * f3 z) (z_values pop))) with (-1 * rsum (map (fun z => p_z_given pop false z * f3 z) (z_values pop))) by lra.
    rewrite <- rsum_scale, <- rsum_plus. apply rsum_ext. intros; unfold dp; lra. }
  rewrite E1, E2, E3. lra.
Qed.
