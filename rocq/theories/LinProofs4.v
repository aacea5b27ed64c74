(** Ridge regression has a solution for all data. *)
From Coq Require Import List Arith Reals Lia Lra.
From Verif Require Import PyBase TabSpec ParamSpec LinSpec LinProofs2.
Import ListNotations.
Open Scope R_scope.

(** residuals of labels [v] at rows [xs] *)
Definition resid (xs : list (list R)) (v t : list R) : list R := map2 (fun y x => y - dot t x) v xs.
Definition vloss (xs : list (list R)) (v t : list R) : R := norm2 (resid xs v t) + norm2 t.

Lemma resid_length xs v t : length v = length xs -> length (resid xs v t) = length xs.
Proof. revert v. induction xs as [|x xs IH]; intros [|y v] H; try discriminate; [reflexivity|]. unfold resid in *. cbn. rewrite IH; [reflexivity|now injection H]. Qed.
Lemma comb_comb a b p q u v w : length u = length w -> length v = length w ->
  comb 1 (- (p * a + q * b)) (comb p q u v) w = comb p q (comb 1 (- a) u w) (comb 1 (- b) v w).
Proof.
  revert v w. unfold comb. induction u as [|x u IH]; intros [|y v] [|z w] H1 H2; try discriminate; [reflexivity|].
  cbn. injection H1 as H1. injection H2 as H2. rewrite IH by assumption. f_equal. ring.
Qed.
Lemma resid_comb xs p q u v s t : length u = length xs -> length v = length xs -> length s = length t ->
  resid xs (comb p q u v) (comb p q s t) = comb p q (resid xs u s) (resid xs v t).
Proof.
  intros H1 H2 H3. revert u v H1 H2. induction xs as [|x xs IH]; intros [|a u] [|b v] H1 H2; try discriminate; [reflexivity|].
  unfold resid, comb in *. cbn [map2]. injection H1 as H1. injection H2 as H2. rewrite IH by assumption. f_equal.
  change (map2 (fun x0 y : R => p * x0 + q * y) s t) with (comb p q s t). rewrite dot_comb by exact H3. ring.
Qed.

(** a solution for all labels, linear in the labels *)
Lemma ridge_linear k : forall xs, Forall (fun x => length x = k) xs ->
  exists L : list R -> list R,
    (forall v, length v = length xs -> length (L v) = k) /\
    (forall p q u v, length u = length xs -> length v = length xs -> L (comb p q u v) = comb p q (L u) (L v)) /\
    (forall v t, length v = length xs -> length t = k -> vloss xs v (L v) <= vloss xs v t).
Proof.
  induction k as [|k IH]; intros xs Hx.
  - exists (fun _ => []). split; [reflexivity|]. split; [reflexivity|]. intros v t _ Ht. destruct t; [lra|discriminate].
  - set (h := map (hd 0) xs). set (xs' := map (@tl R) xs).
    assert (Lh : length h = length xs) by apply map_length. assert (Lx : length xs' = length xs) by apply map_length.
    assert (Hx' : Forall (fun x => length x = k) xs').
    { unfold xs'. rewrite Forall_map. eapply Forall_impl; [|exact Hx]. intros [|a x] E; [discriminate|]. now injection E. }
    destruct (IH xs' Hx') as (L & L1 & L2 & L3). rewrite Lx in *.
    assert (Cl : forall p q u v, length u = length xs -> length v = length xs -> length (comb p q u v) = length xs) by (intros; rewrite comb_length; congruence).
    (* the bilinear form of the reduced loss *)
    set (C := fun u v => dot (resid xs' u (L u)) (resid xs' v (L v)) + dot (L u) (L v)).
    assert (Lr : forall v t, length v = length xs -> length (resid xs' v t) = length xs) by (intros; rewrite resid_length; congruence).
    assert (CC : forall v, C v v = vloss xs' v (L v)) by reflexivity.
    assert (Cl1 : forall p q u v w, length u = length xs -> length v = length xs -> length w = length xs -> C (comb p q u v) w = p * C u w + q * C v w).
    { intros p q u v w Hu Hv Hw. unfold C. rewrite L2 by assumption. rewrite resid_comb by (rewrite ?L1; congruence).
      rewrite !dot_comb by (rewrite ?Lr, ?L1; congruence). ring. }
    assert (Cs : forall u v, C u v = C v u) by (intros; unfold C; now rewrite dot_comm, (dot_comm (L u))).
    assert (Cp : forall v, 0 <= C v v) by (intros; unfold C; pose proof (norm2_nonneg (resid xs' v (L v))); pose proof (norm2_nonneg (L v)); unfold norm2 in *; lra).
    set (A := fun y => C y h / (1 + C h h)).
    assert (Hd : 0 < 1 + C h h) by (specialize (Cp h); lra).
    assert (Al : forall p q u v, length u = length xs -> length v = length xs -> A (comb p q u v) = p * A u + q * A v).
    { intros. unfold A. rewrite Cl1 by assumption. field. lra. }
    (* the loss with the first coefficient a *)
    assert (Red : forall y a t, length y = length xs -> length t = k -> vloss xs y (a :: t) = vloss xs' (comb 1 (- a) y h) t + a ^ 2).
    { intros y a t Hy Ht. unfold vloss. replace (norm2 (a :: t)) with (a ^ 2 + norm2 t) by (unfold norm2, dot; cbn; ring).
      replace (resid xs y (a :: t)) with (resid xs' (comb 1 (- a) y h) t); [ring|].
      clear - Hx Hy. unfold h, xs'. revert y Hy. induction xs as [|x xs IHx]; intros [|b y] Hy; try discriminate; [reflexivity|].
      inversion Hx as [|? ? E F]; subst. destruct x as [|x0 x]; [discriminate|]. unfold resid, comb in *. cbn [map map2 hd tl].
      injection Hy as Hy. rewrite IHx by assumption. f_equal. unfold dot. cbn. ring. }
    assert (Val : forall y a, length y = length xs -> C (comb 1 (- a) y h) (comb 1 (- a) y h) + a ^ 2 = C y y - 2 * a * C y h + a ^ 2 * (1 + C h h)).
    { intros y a Hy. rewrite Cl1 by (rewrite ?Cl; congruence). rewrite (Cs y (comb 1 (- a) y h)), (Cs h (comb 1 (- a) y h)). rewrite !Cl1 by congruence.
      rewrite (Cs h y). ring. }
    exists (fun y => A y :: L (comb 1 (- A y) y h)). split; [|split].
    + intros v Hv. cbn. f_equal. apply L1. rewrite comb_length; congruence.
    + intros p q u v Hu Hv. rewrite Al by assumption. unfold comb at 3. cbn [map2]. f_equal.
      rewrite (comb_comb (A u) (A v) p q u v h ltac:(congruence) ltac:(congruence)). rewrite L2 by (rewrite comb_length; congruence). reflexivity.
    + intros y [|a t] Hy Ht; [discriminate|]. injection Ht as Ht. assert (Hc : forall b, length (comb 1 (- b) y h) = length xs) by (intros; rewrite comb_length; congruence).
      rewrite Red by (try apply L1; auto). rewrite Red by assumption.
      apply Rle_trans with (vloss xs' (comb 1 (- a) y h) (L (comb 1 (- a) y h)) + a ^ 2); [|pose proof (L3 (comb 1 (- a) y h) t (Hc a) Ht); lra].
      rewrite <- !CC, !Val by assumption. unfold A. set (D := 1 + C h h) in *. set (c := C y h).
      assert (E : C y y - 2 * a * c + a ^ 2 * D - (C y y - 2 * (c / D) * c + (c / D) ^ 2 * D) = D * (a - c / D) ^ 2) by (field; lra).
      pose proof (pow2_ge_0 (a - c / D)) as P. assert (0 <= D * (a - c / D) ^ 2) by (apply Rmult_le_pos; lra). lra.
Qed.

Lemma vloss_ridge data t : vloss (map fst data) (map snd data) t = ridge_loss data t.
Proof.
  unfold vloss, ridge_loss. f_equal. induction data as [|p data IH]; [reflexivity|]. unfold resid in *. cbn [map map2 rsum]. rewrite <- IH.
  assert (N : forall a l, norm2 (a :: l) = a ^ 2 + norm2 l) by (intros; unfold norm2, dot; cbn; ring). apply N.
Qed.
Lemma ridge_exists k data : Forall (fun p => length (fst p) = k) data -> exists t, is_ridge k data t.
Proof.
  intros H. destruct (ridge_linear k (map fst data)) as (L & L1 & _ & L3); [rewrite Forall_map; exact H|].
  assert (Ll : length (map snd data) = length (map fst data)) by (now rewrite !map_length).
  exists (L (map snd data)). split; [apply L1, Ll|]. intros t' Ht. rewrite <- !vloss_ridge. apply L3; assumption.
Qed.
