(** Proofs about ridge regression. *)
From Coq Require Import List Arith ZArith Lia Bool Reals Lra Permutation.
From Verif Require Import PyBase TabSpec LinSpec.
Import ListNotations.
Open Scope R_scope.

Definition comb (a b : R) (u v : list R) : list R := map2 (fun x y => a * x + b * y) u v.
Lemma comb_length a b u v : length u = length v -> length (comb a b u v) = length u.
Proof. unfold comb. revert v. induction u as [|x u IH]; intros [|y v] H; try discriminate; [reflexivity|]. cbn. rewrite IH; [reflexivity|now injection H]. Qed.
Lemma dot_comm u v : dot u v = dot v u.
Proof. unfold dot. revert v. induction u as [|x u IH]; intros [|y v]; try reflexivity. cbn. rewrite IH. ring. Qed.
Lemma dot_comb a b u v x : length u = length v -> dot (comb a b u v) x = a * dot u x + b * dot v x.
Proof.
  unfold comb, dot. revert v x. induction u as [|p u IH]; intros [|q v] x H; try discriminate; [cbn; ring|]. injection H as H.
  destruct x as [|r x]; cbn; [ring|]. rewrite (IH v x H). ring.
Qed.
Lemma norm2_comb a b u v : length u = length v -> norm2 (comb a b u v) = a ^ 2 * norm2 u + 2 * a * b * dot u v + b ^ 2 * norm2 v.
Proof.
  intros H. unfold norm2. rewrite dot_comb by exact H. rewrite (dot_comm u), (dot_comm v), !dot_comb by exact H. rewrite (dot_comm v u). ring.
Qed.
Lemma norm2_nonneg u : 0 <= norm2 u.
Proof. unfold norm2, dot. induction u as [|x u IH]; cbn; [lra|]. nra. Qed.
Lemma norm2_zero u : norm2 u = 0 -> u = repeat 0 (length u).
Proof.
  induction u as [|x u IH]; intros H; [reflexivity|]. unfold norm2, dot in H, IH. cbn in *. pose proof (norm2_nonneg u) as Hn. unfold norm2, dot in Hn.
  assert (x = 0) by nra. assert (rsum (map2 Rmult u u) = 0) by nra. subst x. f_equal. now apply IH.
Qed.
Lemma comb_zero_eq u v : length u = length v -> comb 1 (-1) u v = repeat 0 (length u) -> u = v.
Proof.
  unfold comb. revert v. induction u as [|x u IH]; intros [|y v] H E; try discriminate; [reflexivity|]. cbn in E. injection E as E1 E2. injection H as H.
  f_equal; [lra|auto].
Qed.
Lemma rsum_map_ext {A} (f g : A -> R) l : (forall a, In a l -> f a = g a) -> rsum (map f l) = rsum (map g l).
Proof. induction l as [|a l IH]; intros H; [reflexivity|]. cbn. rewrite (H a) by (left; auto). rewrite IH; [reflexivity|]. intros b Hb. apply H. right. exact Hb. Qed.
Lemma rsum_lin {A} (f g : A -> R) a b l : rsum (map (fun x => a * f x + b * g x) l) = a * rsum (map f l) + b * rsum (map g l).
Proof. induction l as [|x l IH]; cbn; [ring|]. rewrite IH. ring. Qed.
Lemma rsum_map_nonneg {A} (f : A -> R) l : (forall a, 0 <= f a) -> 0 <= rsum (map f l).
Proof. intros H. induction l as [|a l IH]; cbn; [lra|]. specialize (H a). lra. Qed.

(** the loss of the point between two others *)
Lemma loss_mid data u v : length u = length v ->
  ridge_loss data (comb (1/2) (1/2) u v) =
  (ridge_loss data u + ridge_loss data v) / 2 - (rsum (map (fun p => (dot (comb 1 (-1) u v) (fst p)) ^ 2) data) + norm2 (comb 1 (-1) u v)) / 4.
Proof.
  intros H. unfold ridge_loss. rewrite !norm2_comb by exact H.
  rewrite (rsum_map_ext (fun p => (snd p - dot (comb (1/2) (1/2) u v) (fst p)) ^ 2)
    (fun p => 1 * (1 / 2 * (snd p - dot u (fst p)) ^ 2 + 1 / 2 * (snd p - dot v (fst p)) ^ 2) + (-(1 / 4)) * (dot (comb 1 (-1) u v) (fst p)) ^ 2)).
  2:{ intros p _. rewrite !dot_comb by exact H. field. }
  rewrite (rsum_lin (fun p => 1 / 2 * (snd p - dot u (fst p)) ^ 2 + 1 / 2 * (snd p - dot v (fst p)) ^ 2)), (rsum_lin (fun p : list R * R => (snd p - dot u (fst p)) ^ 2)). field.
Qed.
Lemma ridge_unique k data u v : is_ridge k data u -> is_ridge k data v -> u = v.
Proof.
  intros [Hu Mu] [Hv Mv]. assert (H : length u = length v) by congruence.
  pose proof (loss_mid data u v H) as E. pose proof (Mu (comb (1/2) (1/2) u v)) as M1. rewrite comb_length in M1 by exact H. specialize (M1 Hu).
  pose proof (Mu v Hv). pose proof (Mv u Hu).
  assert (0 <= rsum (map (fun p : list R * R => (dot (comb 1 (-1) u v) (fst p)) ^ 2) data)) by (apply rsum_map_nonneg; intros; apply pow2_ge_0).
  pose proof (norm2_nonneg (comb 1 (-1) u v)).
  apply comb_zero_eq; [exact H|]. rewrite <- (comb_length 1 (-1) u v H). apply norm2_zero. lra.
Qed.
Lemma rsum_perm l l' : Permutation l l' -> rsum l = rsum l'.
Proof. induction 1; cbn; lra. Qed.
Lemma ridge_perm k data data' u : Permutation data data' -> is_ridge k data u -> is_ridge k data' u.
Proof.
  intros H [Hu Mu]. split; [exact Hu|]. intros t' Ht. specialize (Mu t' Ht). unfold ridge_loss in *.
  rewrite <- !(rsum_perm _ _ (Permutation_map _ H)). exact Mu.
Qed.

Section Noiseless.
  Context (k : nat) (data : list (list R * R)) (t u : list R).
  Hypothesis (Ht : noiseless k data t) (Hu : is_ridge k data u).
  Lemma noiseless_loss v : length v = k -> ridge_loss data v = rsum (map (fun p => (dot (comb 1 (-1) t v) (fst p)) ^ 2) data) + norm2 v.
  Proof.
    intros Hv. destruct Ht as [Hl F]. unfold ridge_loss. f_equal. apply rsum_map_ext. intros p Hp. rewrite Forall_forall in F. destruct (F p Hp) as [_ ->].
    rewrite dot_comb by congruence. ring.
  Qed.
  (** the fit on noiseless data: shorter than the truth, and with errors bounded whatever the number of rows *)
  Lemma noiseless_bound : squared_error data u + norm2 u <= norm2 t.
  Proof.
    destruct Ht as [Hl F]. destruct Hu as [Hk M]. specialize (M t Hl). unfold squared_error. unfold ridge_loss in M at 1.
    rewrite (noiseless_loss t Hl) in M.
    rewrite (rsum_map_ext (fun p => (dot (comb 1 (-1) t t) (fst p)) ^ 2) (fun p => 0 * 0 + 0 * 0)) in M by (intros; rewrite dot_comb by reflexivity; ring).
    rewrite (rsum_lin (fun _ : list R * R => 0) (fun _ => 0)) in M. lra.
  Qed.
  (** never the truth, unless that is zero *)
  Lemma noiseless_shrinks : u = t -> norm2 t = 0.
  Proof.
    intros E. rewrite E in Hu. destruct Ht as [Hl F]. destruct Hu as [Hk M].
    set (S := rsum (map (fun p : list R * R => (dot t (fst p)) ^ 2) data)).
    assert (HS : 0 <= S) by (apply rsum_map_nonneg; intros; apply pow2_ge_0). pose proof (norm2_nonneg t) as Hn.
    destruct (Req_dec (norm2 t) 0) as [Z|Z]; [exact Z|]. exfalso.
    set (eps := norm2 t / (S + norm2 t)).
    assert (He : 0 < S + norm2 t) by lra.
    specialize (M (comb (1 - eps) 0 t t)). rewrite comb_length in M by reflexivity. specialize (M Hl).
    rewrite !noiseless_loss in M by (rewrite ?comb_length; auto).
    rewrite (rsum_map_ext (fun p => (dot (comb 1 (-1) t t) (fst p)) ^ 2) (fun p => 0 * (dot t (fst p)) ^ 2 + 0 * 0)) in M by (intros; rewrite dot_comb by reflexivity; ring).
    rewrite (rsum_map_ext (fun p => (dot (comb 1 (-1) t (comb (1 - eps) 0 t t)) (fst p)) ^ 2) (fun p => eps ^ 2 * (dot t (fst p)) ^ 2 + 0 * 0)) in M.
    2:{ intros p _. rewrite dot_comb by (rewrite comb_length; reflexivity). rewrite dot_comb by reflexivity. ring. }
    rewrite !(rsum_lin (fun p : list R * R => (dot t (fst p)) ^ 2) (fun _ => 0)) in M. fold S in M. rewrite norm2_comb in M by reflexivity.
    fold (norm2 t) in M.
    assert (Ee : eps * (S + norm2 t) = norm2 t) by (unfold eps; field; lra).
    assert (0 < eps) by (unfold eps; apply Rdiv_lt_0_compat; lra).
    nra.
  Qed.
  (** the distance to the truth *)
  Lemma noiseless_distance lam : 0 < lam -> spread k data lam -> norm2 (comb 1 (-1) u t) <= norm2 t / lam.
  Proof.
    intros Hlam Hs. destruct Ht as [Hl F]. destruct Hu as [Hk M]. assert (H : length u = length t) by congruence.
    specialize (Hs (comb 1 (-1) u t)). rewrite comb_length in Hs by exact H. specialize (Hs Hk).
    pose proof noiseless_bound as B. unfold squared_error in B. pose proof (norm2_nonneg u).
    rewrite (rsum_map_ext (fun p => (dot (comb 1 (-1) u t) (fst p)) ^ 2) (fun p => (snd p - dot u (fst p)) ^ 2)) in Hs.
    2:{ intros p Hp. rewrite Forall_forall in F. destruct (F p Hp) as [_ ->]. rewrite dot_comb by exact H. ring. }
    apply Rmult_le_reg_l with lam; [exact Hlam|]. replace (lam * (norm2 t / lam)) with (norm2 t) by (field; lra). lra.
  Qed.
End Noiseless.

Lemma cauchy u v : length u = length v -> (dot u v) ^ 2 <= norm2 u * norm2 v.
Proof.
  intros H. pose proof (norm2_nonneg u) as Hu. pose proof (norm2_nonneg v) as Hv.
  pose proof (norm2_nonneg (comb (norm2 v) (- dot u v) u v)) as Hc. rewrite norm2_comb in Hc by exact H.
  destruct (Req_dec (norm2 v) 0) as [Z|Z].
  - apply norm2_zero in Z as E. rewrite Z. assert (D : forall n w, dot w (repeat 0 n) = 0).
    { intros n. unfold dot. induction n as [|n IH]; intros [|x w]; cbn; try reflexivity. rewrite IH. ring. }
    rewrite E, D. lra.
  - apply Rmult_le_reg_l with (norm2 v); [lra|]. set (d := dot u v) in *. nra.
Qed.
