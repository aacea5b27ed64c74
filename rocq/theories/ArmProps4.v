(** Property theorem C80: the chi-square interval. *)
From Coq Require Import List Arith ZArith Lia Bool Reals Lra Permutation.
From Flocq Require Import Core BinarySingleNaN.
From Verif Require Import PyBase PyLemmas Num NumLemmas NumOps FloatOps NumLaws DataModel DataSpec TabReal
  ArmModel ArmSpec ArmProofs1 ArmProofs2 ArmProofs3 ArmProofs6 ArmProps ArmProps2.
Import ListNotations.
Open Scope nat_scope.

Section Chi2.
Context {N V H G : Type} (o : numops N) (vnone : V) (eo : eta_ops N V H G) (w : arm_world N G)
        (tr : expdata V -> res (expdata V)).

(** the textbook interval for a variance from the n units of the second split, with the delta of
    this very call: (n-1) v / q(1 - delta/2) and (n-1) v / q(delta/2), quantiles with n-1 degrees
    of freedom *)
Theorem C80_interval : forall opts (a : arm N V H) d delta g a' g' l u, so_ci opts = CHI2 ->
  ss_update o vnone eo w tr opts a d delta g = ((a', g'), Ok (l, u)) ->
  ar_ci a' = (Some l, Some u) /\
  ((e_enough eo (ar_eta a') = false /\ l = nint o 0 /\ u = ninf o) \/
   exists first second rest v, ar_split a' = Some (first :: second :: rest) /\ ar_var a' = Some v /\ nisnan o v = false /\
     let df := (Z.of_nat (n_units second) - 1)%Z in
     let q p := aw_chi2 w p df in
     l = ndiv o (nmul o v (nint o df)) (q (nsub o (nint o 1) (ndiv o delta (nint o 2)))) /\
     u = ndiv o (nmul o v (nint o df)) (q (ndiv o delta (nint o 2)))).
Proof.
  intros opts a d delta g a' g' l u Hci E.
  pose proof (ss_ok_inv o vnone eo w tr opts a d delta g a' g' l u E) as (Hc & a1 & g1 & f0 & h & g2 & Ea & E0 & Ef & _ & Hcase).
  destruct (ss_frame o vnone eo w tr opts a d delta g a1 g1 None Ea a' g' _ E) as (Hs & _).
  split; [exact Hc|].
  destruct Hcase as [(Hen & -> & -> & _ & _ & He)|(Hen & f1 & h1 & h2 & s1 & s2 & ate & v & E1 & _ & _ & _ & _ & Ev & Hv & Hvn & Hm)].
  - left. rewrite He. auto.
  - right. rewrite Hci in Hm. destruct Hm as (_ & Elu). unfold fold in E1. rewrite <- Hs in E1.
    destruct (ar_split a') as [[|x [|y rest]]|] eqn:Es; cbn in E1; try discriminate. injection E1 as ->.
    exists x, f1, rest, v. split; [reflexivity|]. split; [exact Hv|]. split; [exact Hvn|].
    unfold chi2_ci in Elu. cbv zeta in *. injection Elu as -> ->. split; reflexivity.
Qed.

(** one unit in the second split: scipy's quantiles for 0 degrees of freedom are NaN, and so is
    the interval *)
Theorem C80_single_unit : forall opts (a : arm N V H) d delta g a' g' l u first second rest, laws o -> so_ci opts = CHI2 ->
  (forall p, nisnan o (aw_chi2 w p 0) = true) ->
  ss_update o vnone eo w tr opts a d delta g = ((a', g'), Ok (l, u)) -> e_enough eo (ar_eta a') = true ->
  ar_split a' = Some (first :: second :: rest) -> n_units second = 1 ->
  nisnan o l = true /\ nisnan o u = true.
Proof.
  intros opts a d delta g a' g' l u f1 f2 rest L Hci Hq E Hen Es Hn.
  destruct (C80_interval opts a d delta g a' g' l u Hci E) as (_ & [(Hf & _)|(x & y & r & v & Es' & _ & _ & El & Eu)]); [congruence|].
  rewrite Es in Es'. injection Es' as <- <- <-. rewrite Hn in El, Eu. cbn in El, Eu.
  assert (Hd : forall a b, nisnan o b = true -> nisnan o (ndiv o a b) = true).
  { intros x y Hy. destruct (nisnan o (ndiv o x y)) eqn:Ed; [reflexivity|]. apply (l_nan_div o L) in Ed. unfold okn in Ed. destruct Ed; congruence. }
  rewrite El, Eu. split; apply Hd, Hq.
Qed.
End Chi2.
Print Assumptions C80_interval.
Print Assumptions C80_single_unit.

(** in exact arithmetic: with positive ordered quantiles the interval is ordered, and it contains
    the estimate if n - 1 is between the quantiles *)
Theorem C80_ordered : forall {V H G} (vnone : V) (eo : eta_ops X V H G) (w : arm_world X G) tr
    opts (a : arm X V H) d (delta : R) g a' g' l u first second rest v (q : R -> R),
  so_ci opts = CHI2 ->
  ss_update xreal vnone eo w tr opts a d (Fin delta) g = ((a', g'), Ok (l, u)) -> e_enough eo (ar_eta a') = true ->
  ar_split a' = Some (first :: second :: rest) -> 2 <= n_units second -> ar_var a' = Some (Fin v) -> (0 <= v)%R ->
  let n1 := (INR (n_units second) - 1)%R in
  (forall p, aw_chi2 w (Fin p) (Z.of_nat (n_units second) - 1) = Fin (q p)) ->
  (0 < q (delta / 2) <= q (1 - delta / 2))%R ->
  exists lo hi, l = Fin lo /\ u = Fin hi /\ (0 <= lo <= hi)%R /\
    ((q (delta / 2) <= n1)%R -> (v <= hi)%R) /\ ((n1 <= q (1 - delta / 2))%R -> (lo <= v)%R).
Proof.
  intros V H G vnone eo w tr opts a d delta g a' g' l u f1 f2 rest v q Hci E Hen Es Hn Hv Hv0 n1 Hq Hqq.
  destruct (C80_interval xreal vnone eo w tr opts a d (Fin delta) g a' g' l u Hci E) as (_ & [(Hf & _)|(x & y & r & v' & Es' & Hv' & _ & El & Eu)]); [congruence|].
  rewrite Es in Es'. injection Es' as <- <- <-. assert (v' = Fin v) as -> by congruence. clear Hv'.
  assert (Hn1 : nint xreal (Z.of_nat (n_units f2) - 1) = Fin n1).
  { rewrite nint_x. f_equal. unfold n1. rewrite minus_IZR, <- INR_IZR_INZ. lra. }
  assert (Hn2 : (1 <= n1)%R) by (unfold n1; apply le_INR in Hn; cbn in Hn; lra).
  cbv zeta in El, Eu. rewrite Hn1 in El, Eu. rewrite !nint_x in El. rewrite !nint_x in Eu. cbn [ndiv nmul nsub xreal xmul] in El, Eu.
  rewrite (xdiv_fin delta 2) in El, Eu by lra. cbn [xsub xneg xadd] in El. rewrite !Hq in El, Eu.
  replace (1 + - (delta / 2))%R with (1 - delta / 2)%R in El by lra.
  rewrite xdiv_fin in El by lra. rewrite xdiv_fin in Eu by lra.
  exists (v * n1 / q (1 - delta / 2))%R, (v * n1 / q (delta / 2))%R. split; [exact El|]. split; [exact Eu|].
  assert (Hvn : (0 <= v * n1)%R) by (apply Rmult_le_pos; lra).
  assert (Hinv : forall y, (0 < y)%R -> (0 < / y)%R) by (intros; now apply Rinv_0_lt_compat).
  split; [split|split].
  - apply Rmult_le_pos; [exact Hvn|]. left. apply Hinv. lra.
  - apply Rmult_le_compat_l; [exact Hvn|]. apply Rinv_le_contravar; lra.
  - intros Hle. apply (Rmult_le_reg_r (q (delta / 2)%R)); [lra|]. replace (v * n1 / q (delta / 2) * q (delta / 2))%R with (v * n1)%R by (field; lra).
    apply Rmult_le_compat_l; lra.
  - intros Hle. apply (Rmult_le_reg_r (q (1 - delta / 2)%R)); [lra|]. replace (v * n1 / q (1 - delta / 2) * q (1 - delta / 2))%R with (v * n1)%R by (field; lra).
    apply Rmult_le_compat_l; lra.
Qed.
Print Assumptions C80_ordered.

(** binary64, quantiles 1/2 and 5: the first update with four units gives an interval around the
    estimate *)
Example C80_case : ordered_ci (toy_upd CHI2 true toy_new (batch [1; 4; 9; 2]) tenth 0) = (None, true).
Proof. vm_compute. reflexivity. Qed.
