(** Units are independent: the squared error of an average over a batch. *)
From Coq Require Import List Arith ZArith Bool String Reals Lra Lia.
From Verif Require Import PyBase Num NumOps DataModel ScmModel TabModel TabSpec LawSpec LawProofs ScoreSpec ScoreProofs ScoreProofs3.
Import ListNotations.
Open Scope nat_scope.
Open Scope list_scope.

Lemma rsum_plus {B} (f h : B -> R) l : rsum (map (fun b => (f b + h b)%R) l) = (rsum (map f l) + rsum (map h l))%R.
Proof. induction l as [|b l IH]; cbn [map rsum]; [lra|]. rewrite IH. lra. Qed.
Lemma rsum_mult_l {B} c (f : B -> R) l : rsum (map (fun b => (c * f b)%R) l) = (c * rsum (map f l))%R.
Proof. induction l as [|b l IH]; cbn [map rsum]; [lra|]. rewrite IH. lra. Qed.
Lemma rsum_square {B} (f : B -> R) l : (rsum (map f l) ^ 2)%R = rsum (map (fun a => rsum (map (fun b => (f a * f b)%R) l)) l).
Proof.
  rewrite (map_ext (fun a => rsum (map (fun b => (f a * f b)%R) l)) (fun a => (rsum (map f l) * f a)%R)).
  - rewrite rsum_mult_l. lra.
  - intro a. rewrite rsum_mult_l. lra.
Qed.
Lemma rsum_single (c : R) n u : u < n -> rsum (map (fun v => if u =? v then c else 0%R) (seq 0 n)) = c.
Proof.
  intro Hu. assert (H : forall len a, rsum (map (fun v => if u =? v then c else 0%R) (seq a len)) = if (a <=? u) && (u <? a + len) then c else 0%R).
  { induction len as [|len IH]; intro a; cbn [seq map rsum].
    - destruct (Nat.leb_spec a u), (Nat.ltb_spec u (a + 0)); cbn [andb]; trivial; lia.
    - rewrite IH. destruct (Nat.eqb_spec u a), (Nat.leb_spec (S a) u), (Nat.ltb_spec u (S a + len)), (Nat.leb_spec a u), (Nat.ltb_spec u (a + S len)); cbn [andb]; try lia; lra. }
  rewrite H. destruct (Nat.leb_spec 0 u), (Nat.ltb_spec u (0 + n)); cbn [andb]; trivial; lia.
Qed.

Section Independent.
  Context {W : Type} (w0 : W) (seeds : law W).
  Hypothesis Hl : is_law seeds.
  Notation TU := (unit_tapes seeds).
  Notation tape_of := (of_unit w0).

  Lemma mean_entry n u F : u < n -> mean (tapes seeds n) (fun ws => F (nth u ws w0)) = mean seeds F.
  Proof.
    intro Hu. transitivity (mean (tapes seeds 1) (fun l => F (hd w0 l))).
    - apply (mean_unit1 w0 seeds n u (fun l => F (hd w0 l)) Hl Hu).
    - rewrite mean_tapes_S. apply mean_ext. intro w. cbn [tapes mean hd]. lra.
  Qed.
  Lemma mean_entries n : forall u v H, u < n -> v < n -> u <> v ->
    mean (tapes seeds n) (fun ws => H (nth u ws w0) (nth v ws w0)) = mean seeds (fun a => mean seeds (fun b => H a b)).
  Proof.
    induction n as [|n IH]; intros u v H Hu Hv Hne; [lia|]. rewrite mean_tapes_S. destruct u as [|u], v as [|v]; cbn [nth]; [lia| | |].
    - apply mean_ext. intro a. apply (mean_entry n v (fun b => H a b)). lia.
    - transitivity (mean seeds (fun b => mean seeds (fun a => H a b))); [|apply mean_swap].
      apply mean_ext. intro b. apply (mean_entry n u (fun a => H a b)). lia.
    - rewrite (mean_ext seeds _ (fun _ => mean seeds (fun a => mean seeds (fun b => H a b)))) by (intro; apply IH; lia).
      apply mean_const, Hl.
  Qed.
  Lemma tape1 F : mean (tapes seeds 1) F = mean seeds (fun w => F [w]).
  Proof. rewrite mean_tapes_S. apply mean_ext. intro w. cbn [tapes mean]. lra. Qed.
  Lemma mean_units n k u v : u < n -> v < n -> u <> v -> forall F,
    mean (TU n k) (fun g => F (tape_of u g) (tape_of v g)) = mean (TU 1 k) (fun g => mean (TU 1 k) (fun h => F g h)).
  Proof.
    intros Hu Hv Hne. unfold unit_tapes. induction k as [|k IH]; intro F.
    - cbn [tapes mean]. cbn [of_unit map]. lra.
    - rewrite (mean_tapes_S (tapes seeds n)), (mean_tapes_S (tapes seeds 1)).
      transitivity (mean (tapes seeds n) (fun ws => mean (tapes (tapes seeds 1) k) (fun g => mean (tapes (tapes seeds 1) k) (fun h =>
        F ([nth u ws w0] :: g) ([nth v ws w0] :: h))))).
      { apply mean_ext. intro ws. exact (IH (fun g h => F ([nth u ws w0] :: g) ([nth v ws w0] :: h))). }
      rewrite (mean_entries n u v (fun a b => mean (tapes (tapes seeds 1) k) (fun g => mean (tapes (tapes seeds 1) k) (fun h => F ([a] :: g) ([b] :: h)))) Hu Hv Hne).
      rewrite tape1. apply mean_ext. intro a. rewrite mean_swap. apply mean_ext. intro g.
      rewrite (mean_tapes_S (tapes seeds 1)), tape1. reflexivity.
  Qed.

  (** a mean of 0 per unit: the squares add up, the products vanish *)
  Lemma mean_square n k (D : list (list W) -> R) : 1 <= n -> mean (TU 1 k) D = 0%R ->
    mean (TU n k) (fun g => ((rsum (map (fun u => D (tape_of u g)) (seq 0 n)) / INR n) ^ 2)%R) =
    (mean (TU 1 k) (fun g => (D g ^ 2)%R) / INR n)%R.
  Proof.
    intros Hn H0. assert (Hi : INR n <> 0%R) by (apply not_0_INR; lia).
    rewrite (mean_ext _ _ (fun g => (rsum (map (fun u => rsum (map (fun v => (D (tape_of u g) * D (tape_of v g))%R) (seq 0 n))) (seq 0 n)) * / (INR n * INR n))%R)).
    2: { intro g. rewrite <- (rsum_square (fun u => D (tape_of u g))). field. exact Hi. }
    rewrite mean_scal_r.
    rewrite (mean_rsum (TU n k) (fun u g => rsum (map (fun v => (D (tape_of u g) * D (tape_of v g))%R) (seq 0 n)))).
    rewrite (map_ext_in _ (fun _ => mean (TU 1 k) (fun g => (D g ^ 2)%R))).
    - rewrite rsum_const, seq_length. field. exact Hi.
    - intros u Hu. apply in_seq in Hu. rewrite (mean_rsum (TU n k) (fun v g => (D (tape_of u g) * D (tape_of v g))%R)).
      rewrite <- (rsum_single (mean (TU 1 k) (fun g => (D g ^ 2)%R)) n u) by lia. f_equal. apply map_ext_in. intros v Hv. apply in_seq in Hv.
      destruct (Nat.eqb_spec u v) as [<-|Hne].
      + rewrite <- (mean_unit w0 seeds n k u (fun g => (D g ^ 2)%R) Hl) by lia. apply mean_ext. intro g. lra.
      + rewrite (mean_units n k u v ltac:(lia) ltac:(lia) Hne (fun g h => (D g * D h)%R)).
        rewrite (mean_ext _ _ (fun g => 0%R)); [apply mean_zero|]. intro g. rewrite mean_scal, H0. lra.
  Qed.
End Independent.

(** Chebyshev's inequality *)
Lemma chebyshev {A} (d : law A) (f : A -> R) eps : (forall a p, In (a, p) d -> (0 <= p)%R) -> (0 < eps)%R ->
  (prob d (fun a => if Rle_dec eps (Rabs (f a)) then true else false) <= mean d (fun a => (f a ^ 2)%R) / eps ^ 2)%R.
Proof.
  intros Hp He. unfold Rdiv. rewrite <- mean_scal_r. apply mean_le; [exact Hp|]. intro a.
  assert (H2 : (0 < eps ^ 2)%R) by now apply pow_lt. pose proof (pow2_ge_0 (f a)).
  destruct (Rle_dec eps (Rabs (f a))) as [H'|_].
  - apply Rmult_le_reg_r with (eps ^ 2)%R; [exact H2|]. rewrite Rmult_assoc, Rinv_l by lra. rewrite Rmult_1_l, Rmult_1_r.
    rewrite <- (pow2_abs (f a)). apply pow_incr. lra.
  - apply Rmult_le_pos; [assumption|]. left. now apply Rinv_0_lt_compat.
Qed.

(** the average of independent units around its mean *)
Section Error.
  Context {W : Type} (w0 : W) (seeds : law W).
  Hypothesis Hl : is_law seeds.

  Lemma average_shift {B} (F : B -> R) c l : l <> [] -> (average (map F l) - c)%R = (rsum (map (fun b => (F b - c)%R) l) / INR (List.length l))%R.
  Proof.
    clear. intro Hn. unfold average. rewrite map_length.
    assert (Hi : INR (List.length l) <> 0%R) by (apply not_0_INR; destruct l; cbn; congruence).
    rewrite (map_ext (fun b => (F b - c)%R) (fun b => (F b + - c)%R)) by (intro; lra).
    rewrite rsum_plus, rsum_const. field. exact Hi.
  Qed.
  Lemma average_error k (F : list (list W) -> R) n : 1 <= n ->
    mean (unit_tapes seeds n k) (fun g => ((average (map (fun u => F (of_unit w0 u g)) (seq 0 n)) - mean (unit_tapes seeds 1 k) F) ^ 2)%R) =
    (mean (unit_tapes seeds 1 k) (fun g => ((F g - mean (unit_tapes seeds 1 k) F) ^ 2)%R) / INR n)%R.
  Proof.
    intro Hn. set (c := mean (unit_tapes seeds 1 k) F).
    rewrite <- (mean_square w0 seeds Hl n k (fun g => (F g - c)%R) Hn).
    - apply mean_ext. intro g. rewrite (average_shift (fun u => F (of_unit w0 u g)) c (seq 0 n)) by (destruct n; [lia|discriminate]). now rewrite seq_length.
    - rewrite (mean_ext _ _ (fun g => (F g + - c)%R)) by (intro; lra).
      rewrite mean_plus. fold c. rewrite mean_const; [lra|]. apply tapes_law, tapes_law, Hl.
  Qed.
End Error.

Lemma nat_above (r : R) : exists N, (r < INR N)%R.
Proof.
  exists (Z.to_nat (up r)). destruct (archimed r) as (H & _). destruct (Z_le_gt_dec 0 (up r)) as [Hz|Hz].
  - rewrite INR_IZR_INZ, Z2Nat.id by exact Hz. exact H.
  - apply Rlt_le_trans with 0%R; [|apply pos_INR]. apply Rgt_lt in H. apply Rlt_trans with (IZR (up r)); [exact H|]. apply IZR_lt. lia.
Qed.
