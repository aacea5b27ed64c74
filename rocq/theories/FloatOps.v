(** Every binary64 operation is the exact operation followed by a monotone, saturating
    rounding [rs]. *)
From Coq Require Import ZArith Reals Bool List Lia Lra.
From Flocq Require Import Core BinarySingleNaN.
From Verif Require Import PyBase Num NumLemmas.
Import ListNotations.
Open Scope R_scope.

Definition rnd : R -> R := round radix2 (SpecFloat.fexp 53 1024) (round_mode mode_NE).
(** rounding to nearest even, values beyond the largest float become +-big *)
Definition rs (r : R) : R := Rmax (- big) (Rmin big (rnd r)).

Lemma rnd_mono x y : x <= y -> rnd x <= rnd y.
Proof. intros H. apply round_le; auto with typeclass_instances. apply (fexp_correct 53 1024). exact prec_gt_0_53. Qed.
Lemma rnd_0 : rnd 0 = 0.
Proof. apply round_0. auto with typeclass_instances. Qed.
Lemma rnd_float (x : F) : rnd (B2R x) = B2R x.
Proof. apply round_generic; auto with typeclass_instances. apply generic_format_B2R. Qed.
Lemma rs_mono x y : x <= y -> rs x <= rs y.
Proof. intros H. apply rnd_mono in H. unfold rs. apply Rle_max_compat_l, Rle_min_compat_l, H. Qed.
Lemma rs_0 : rs 0 = 0.
Proof. unfold rs. rewrite rnd_0. pose proof big_pos. rewrite Rmin_right, Rmax_right; lra. Qed.
Lemma rs_float (x : F) : is_finite x = true -> rs (B2R x) = B2R x.
Proof.
  intros H. unfold rs. rewrite rnd_float. pose proof (fkey_bound x H) as Hb. rewrite (fkey_finite x H) in Hb.
  rewrite Rmin_right, Rmax_right; lra.
Qed.
Lemma rs_range r : - big <= rs r <= big.
Proof.
  pose proof big_pos. unfold rs. split; [apply Rmax_l|]. apply Rmax_lub; [lra|]. apply Rmin_l.
Qed.
Lemma rs_small r : Rabs (rnd r) < big -> rs r = rnd r.
Proof. intros H. apply Rabs_def2 in H. unfold rs. rewrite Rmin_right, Rmax_right; lra. Qed.
Lemma rs_nonneg r : 0 <= r -> 0 <= rs r.
Proof. intros H. rewrite <- rs_0. apply rs_mono, H. Qed.
Lemma rs_nonpos r : r <= 0 -> rs r <= 0.
Proof. intros H. rewrite <- rs_0. apply rs_mono, H. Qed.

Lemma Bsign_neg (x : F) : is_finite x = true -> Bsign x = true -> B2R x <= 0.
Proof.
  destruct x as [s| | |s m e Hb']; simpl; try discriminate; intros _ H; [lra|]. subst s. apply F2R_le_0. simpl. lia.
Qed.
Lemma Bsign_pos (x : F) : is_finite x = true -> Bsign x = false -> 0 <= B2R x.
Proof.
  destruct x as [s| | |s m e Hb']; simpl; try discriminate; intros _ H; [lra|]. subst s. apply F2R_ge_0. simpl. lia.
Qed.

Lemma overflow_inf s (z : F) :
  B2SF z = binary_overflow 53 1024 mode_NE s -> z = B754_infinity s.
Proof. intros H. apply B2SF_inj. rewrite H. destruct s; reflexivity. Qed.

Lemma rs_over s r : big <= Rabs (rnd r) -> (s = true -> r <= 0) -> (s = false -> 0 <= r) ->
  rs r = fkey (B754_infinity s).
Proof.
  intros H Ht Hf. pose proof big_pos. destruct s; simpl.
  - specialize (Ht eq_refl). apply rnd_mono in Ht. rewrite rnd_0 in Ht. rewrite Rabs_left1 in H by lra.
    unfold rs. rewrite Rmin_right, Rmax_left; lra.
  - specialize (Hf eq_refl). apply rnd_mono in Hf. rewrite rnd_0 in Hf. rewrite Rabs_pos_eq in H by lra.
    unfold rs. rewrite Rmin_left, Rmax_right; lra.
Qed.

Lemma key_add (x y : F) : is_finite x = true -> is_finite y = true ->
  num (fadd x y) /\ fkey (fadd x y) = rs (B2R x + B2R y).
Proof.
  intros Fx Fy. pose proof (Bplus_correct 53 1024 _ _ mode_NE x y Fx Fy) as Hc.
  change (Bplus mode_NE x y) with (fadd x y) in Hc.
  change (round radix2 (SpecFloat.fexp 53 1024) (round_mode mode_NE)) with rnd in Hc.
  destruct (Rlt_bool_spec (Rabs (rnd (B2R x + B2R y))) (bpow radix2 1024)) as [Hb|Hb].
  - destruct Hc as (HR & HF & _). split; [destruct (fadd x y); try discriminate; reflexivity|].
    rewrite (fkey_finite _ HF), HR, rs_small; [reflexivity|exact Hb].
  - destruct Hc as (HS & Hs). apply overflow_inf in HS. rewrite HS. split; [reflexivity|]. symmetry. apply rs_over; [exact Hb| |].
    + intros E. pose proof (Bsign_neg x Fx E). rewrite Hs in E. pose proof (Bsign_neg y Fy E). lra.
    + intros E. pose proof (Bsign_pos x Fx E). rewrite Hs in E. pose proof (Bsign_pos y Fy E). lra.
Qed.

Lemma key_sub (x y : F) : is_finite x = true -> is_finite y = true ->
  num (fsub x y) /\ fkey (fsub x y) = rs (B2R x - B2R y).
Proof.
  intros Fx Fy. pose proof (Bminus_correct 53 1024 _ _ mode_NE x y Fx Fy) as Hc.
  change (Bminus mode_NE x y) with (fsub x y) in Hc.
  change (round radix2 (SpecFloat.fexp 53 1024) (round_mode mode_NE)) with rnd in Hc.
  destruct (Rlt_bool_spec (Rabs (rnd (B2R x - B2R y))) (bpow radix2 1024)) as [Hb|Hb].
  - destruct Hc as (HR & HF & _). split; [destruct (fsub x y); try discriminate; reflexivity|].
    rewrite (fkey_finite _ HF), HR, rs_small; [reflexivity|exact Hb].
  - destruct Hc as (HS & Hs). apply overflow_inf in HS. rewrite HS. split; [reflexivity|]. symmetry. apply rs_over; [exact Hb| |].
    + intros E. pose proof (Bsign_neg x Fx E). rewrite Hs in E. apply negb_true_iff in E. pose proof (Bsign_pos y Fy E). lra.
    + intros E. pose proof (Bsign_pos x Fx E). rewrite Hs in E. apply negb_false_iff in E. pose proof (Bsign_neg y Fy E). lra.
Qed.

Lemma key_mul (x y : F) : is_finite x = true -> is_finite y = true ->
  num (fmul x y) /\ fkey (fmul x y) = rs (B2R x * B2R y).
Proof.
  intros Fx Fy. pose proof (Bmult_correct 53 1024 _ _ mode_NE x y) as Hc.
  change (Bmult mode_NE x y) with (fmul x y) in Hc.
  change (round radix2 (SpecFloat.fexp 53 1024) (round_mode mode_NE)) with rnd in Hc.
  destruct (Rlt_bool_spec (Rabs (rnd (B2R x * B2R y))) (bpow radix2 1024)) as [Hb|Hb].
  - destruct Hc as (HR & HF & _). rewrite Fx, Fy in HF. simpl in HF. split; [destruct (fmul x y); try discriminate; reflexivity|].
    rewrite (fkey_finite _ HF), HR, rs_small; [reflexivity|exact Hb].
  - apply overflow_inf in Hc. rewrite Hc. split; [reflexivity|]. symmetry. apply rs_over; [exact Hb| |];
    intros E; destruct (Bsign x) eqn:Sx, (Bsign y) eqn:Sy; try discriminate.
    + pose proof (Bsign_neg x Fx Sx). pose proof (Bsign_pos y Fy Sy). nra.
    + pose proof (Bsign_pos x Fx Sx). pose proof (Bsign_neg y Fy Sy). nra.
    + pose proof (Bsign_neg x Fx Sx). pose proof (Bsign_neg y Fy Sy). nra.
    + pose proof (Bsign_pos x Fx Sx). pose proof (Bsign_pos y Fy Sy). nra.
Qed.

Lemma key_div (x y : F) : is_finite x = true -> is_finite y = true -> B2R y <> 0 ->
  num (fdiv x y) /\ fkey (fdiv x y) = rs (B2R x / B2R y).
Proof.
  intros Fx Fy Hy. pose proof (Bdiv_correct 53 1024 _ _ mode_NE x y Hy) as Hc.
  change (Bdiv mode_NE x y) with (fdiv x y) in Hc.
  change (round radix2 (SpecFloat.fexp 53 1024) (round_mode mode_NE)) with rnd in Hc.
  destruct (Rlt_bool_spec (Rabs (rnd (B2R x / B2R y))) (bpow radix2 1024)) as [Hb|Hb].
  - destruct Hc as (HR & HF & _). rewrite Fx in HF. split; [destruct (fdiv x y); try discriminate; reflexivity|].
    rewrite (fkey_finite _ HF), HR, rs_small; [reflexivity|exact Hb].
  - apply overflow_inf in Hc. rewrite Hc. split; [reflexivity|].
    assert (Hsgn : forall a b : R, b <> 0 -> (0 <= a -> 0 <= b -> 0 <= a / b) /\ (a <= 0 -> b <= 0 -> 0 <= a / b) /\ (0 <= a -> b <= 0 -> a / b <= 0) /\ (a <= 0 -> 0 <= b -> a / b <= 0)).
    { intros a b Hb0. unfold Rdiv. split; [|split; [|split]]; intros Ha Hb1.
      - assert (0 < / b) by (apply Rinv_0_lt_compat; lra). nra.
      - assert (/ b < 0) by (apply Rinv_lt_0_compat; lra). nra.
      - assert (/ b < 0) by (apply Rinv_lt_0_compat; lra). nra.
      - assert (0 < / b) by (apply Rinv_0_lt_compat; lra). nra. }
    destruct (Hsgn (B2R x) (B2R y) Hy) as (S1 & S2 & S3 & S4).
    symmetry. apply rs_over; [exact Hb| |];
    intros E; destruct (Bsign x) eqn:Sx, (Bsign y) eqn:Sy; try discriminate.
    + pose proof (Bsign_neg x Fx Sx). pose proof (Bsign_pos y Fy Sy). auto.
    + pose proof (Bsign_pos x Fx Sx). pose proof (Bsign_neg y Fy Sy). auto.
    + pose proof (Bsign_neg x Fx Sx). pose proof (Bsign_neg y Fy Sy). auto.
    + pose proof (Bsign_pos x Fx Sx). pose proof (Bsign_pos y Fy Sy). auto.
Qed.

Lemma key_sqrt (x : F) : is_finite x = true -> num (fsqrt x) ->
  is_finite (fsqrt x) = true /\ B2R (fsqrt x) = rnd (sqrt (B2R x)) /\ (B2R x < 0 -> False).
Proof.
  intros Fx Hn. pose proof (Bsqrt_correct 53 1024 _ _ mode_NE x) as (HR & HF & _).
  change (Bsqrt mode_NE x) with (fsqrt x) in *. rewrite HR, HF. split; [|split; [reflexivity|]].
  - destruct x as [|[]| |[] m e Hb']; try discriminate; reflexivity.
  - destruct x as [s| | |[] m e Hb']; simpl in *; try discriminate; try lra.
    intros H. pose proof (F2R_gt_0 radix2 (Float radix2 (Zpos m) e)). simpl in H0. specialize (H0 ltac:(lia)). lra.
Qed.

Lemma key_of_Z z : num (f_of_Z z) /\ fkey (f_of_Z z) = rs (IZR z).
Proof.
  pose proof (binary_normalize_correct 53 1024 prec_gt_0_53 prec_lt_emax_53 mode_NE z 0 false) as Hc. cbv zeta in Hc.
  change (binary_normalize 53 1024 prec_gt_0_53 prec_lt_emax_53 mode_NE z 0 false) with (f_of_Z z) in Hc.
  change (round radix2 (SpecFloat.fexp 53 1024) (round_mode mode_NE)) with rnd in Hc.
  assert (E : F2R (Float radix2 z 0) = IZR z) by (unfold F2R; simpl; lra). rewrite E in Hc.
  destruct (Rlt_bool_spec (Rabs (rnd (IZR z))) (bpow radix2 1024)) as [Hb|Hb].
  - destruct Hc as (HR & HF & _). split; [destruct (f_of_Z z); try discriminate; reflexivity|].
    rewrite (fkey_finite _ HF), HR, rs_small; [reflexivity|exact Hb].
  - apply overflow_inf in Hc. rewrite Hc. split; [reflexivity|]. symmetry. apply rs_over; [exact Hb| |].
    + intros H. destruct (Rlt_bool_spec (IZR z) 0); try lra; discriminate.
    + intros H. destruct (Rlt_bool_spec (IZR z) 0); try lra; discriminate.
Qed.

(** integers up to 2^53 are represented exactly *)
Lemma of_Z_exact z : (Z.abs z <= 2 ^ 53)%Z -> is_finite (f_of_Z z) = true /\ B2R (f_of_Z z) = IZR z.
Proof.
  intros Hz.
  assert (Hg : generic_format radix2 (SpecFloat.fexp 53 1024) (IZR z)).
  { destruct (Z.eq_dec (Z.abs z) (2 ^ 53)) as [E|E].
    - assert (E' : Rabs (IZR z) = bpow radix2 53).
      { rewrite <- abs_IZR, E. simpl. reflexivity. }
      apply generic_format_abs_inv. rewrite E'. apply generic_format_bpow. unfold SpecFloat.fexp, SpecFloat.emin. lia.
    - apply generic_format_FLT. exists (Float radix2 z 0); simpl.
      + unfold F2R; simpl. lra.
      + lia.
      + unfold SpecFloat.emin. lia. }
  pose proof (binary_normalize_correct 53 1024 prec_gt_0_53 prec_lt_emax_53 mode_NE z 0 false) as Hc. cbv zeta in Hc.
  change (binary_normalize 53 1024 prec_gt_0_53 prec_lt_emax_53 mode_NE z 0 false) with (f_of_Z z) in Hc.
  assert (E : F2R (Float radix2 z 0) = IZR z) by (unfold F2R; simpl; lra). rewrite E in Hc.
  rewrite round_generic in Hc; auto with typeclass_instances.
  rewrite Rlt_bool_true in Hc.
  - destruct Hc as (HR & HF & _). auto.
  - rewrite <- abs_IZR. apply Rle_lt_trans with (IZR (2 ^ 53)); [apply IZR_le; exact Hz|].
    rewrite <- (IZR_Zpower radix2 1024) by lia. apply IZR_lt. simpl. reflexivity.
Qed.
