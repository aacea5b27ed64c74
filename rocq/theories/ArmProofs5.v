(** Bootstrap quantile positions in binary64 and sorting (C36). *)
From Coq Require Import List Arith ZArith Bool Permutation Lia Reals Lra Sorted.
From Flocq Require Import Core BinarySingleNaN Relative.
From Verif Require Import PyBase PyLemmas Num NumLemmas NumOps FloatOps NumLaws BanditSpec BanditProofs2 DataModel ArmModel.
Import ListNotations.
Open Scope R_scope.

(** ** floor and ceiling of floats *)
Lemma pow2_IZR k : (0 <= k)%Z -> IZR (2 ^ k) = bpow radix2 k.
Proof. intros H. rewrite <- (IZR_Zpower radix2 k H). reflexivity. Qed.

Lemma f_floor_spec (x : F) : is_finite x = true -> f_floor x = Ok (Zfloor (B2R x)).
Proof.
  destruct x as [s|s| |s m e H]; intros Hf; try discriminate.
  - simpl. rewrite (Zfloor_IZR 0). reflexivity.
  - cbn [f_floor B2R]. f_equal. unfold F2R. cbn [Fnum Fexp]. change (SpecFloat.cond_Zopp s (Zpos m)) with (if s then Zneg m else Zpos m).
    set (v := if s then Zneg m else Zpos m). destruct (Z.leb_spec 0 e) as [He|He].
    + rewrite <- pow2_IZR by exact He. rewrite <- mult_IZR. symmetry. apply Zfloor_IZR.
    + replace (IZR v * bpow radix2 e) with (IZR v / IZR (2 ^ (- e))).
      * symmetry. apply Zfloor_div. apply Z.pow_nonzero; lia.
      * rewrite pow2_IZR by lia. unfold Rdiv. rewrite <- bpow_opp, Z.opp_involutive. reflexivity.
Qed.

Lemma f_ceil_spec (x : F) : is_finite x = true -> f_ceil x = Ok (Zceil (B2R x)).
Proof.
  destruct x as [s|s| |s m e H]; intros Hf; try discriminate.
  - simpl. rewrite (Zceil_IZR 0). reflexivity.
  - cbn [f_ceil B2R]. f_equal. unfold F2R. cbn [Fnum Fexp]. change (SpecFloat.cond_Zopp s (Zpos m)) with (if s then Zneg m else Zpos m).
    set (v := if s then Zneg m else Zpos m). destruct (Z.leb_spec 0 e) as [He|He].
    + rewrite <- pow2_IZR by exact He. rewrite <- mult_IZR. symmetry. apply Zceil_IZR.
    + unfold Zceil. f_equal. replace (- (IZR v * bpow radix2 e)) with (IZR (- v) / IZR (2 ^ (- e))).
      * symmetry. apply Zfloor_div. apply Z.pow_nonzero; lia.
      * rewrite pow2_IZR by lia. rewrite opp_IZR. unfold Rdiv. rewrite <- bpow_opp, Z.opp_involutive. lra.
Qed.

(** ** small results are finite *)
Lemma big_large : 2 ^ 60 < big.
Proof. unfold big. replace (2 ^ 60) with (bpow radix2 60) by (simpl; lra). apply bpow_lt. lia. Qed.

Lemma rnd_bpow k : (-1074 <= k <= 1000)%Z -> rnd (bpow radix2 k) = bpow radix2 k.
Proof.
  intros H. unfold rnd. apply round_generic; auto with typeclass_instances. apply generic_format_bpow.
  unfold SpecFloat.fexp, SpecFloat.emin. lia.
Qed.

Lemma rs_fin r : Rabs r <= 2 ^ 60 -> rs r = rnd r /\ Rabs (rnd r) <= 2 ^ 60.
Proof.
  intros H. assert (E60 : 2 ^ 60 = bpow radix2 60) by (simpl; lra).
  assert (Hr : Rabs (rnd r) <= 2 ^ 60).
  { apply Rabs_le. apply Rabs_le_inv in H. rewrite E60 in *. split.
    - replace (- bpow radix2 60) with (rnd (- bpow radix2 60)); [apply rnd_mono; lra|].
      unfold rnd. rewrite round_NE_opp. f_equal. apply rnd_bpow. lia.
    - rewrite <- (rnd_bpow 60) by lia. apply rnd_mono. lra. }
  split; [|exact Hr]. apply rs_small. eapply Rle_lt_trans; [exact Hr|apply big_large].
Qed.

Lemma num_small (x : F) : num x -> Rabs (fkey x) < big -> is_finite x = true /\ B2R x = fkey x.
Proof.
  intros Hn Hk. pose proof big_pos as Hb. destruct x as [|[]| |]; try discriminate; simpl in Hk.
  - split; reflexivity.
  - rewrite Rabs_Ropp, Rabs_pos_eq in Hk by lra. lra.
  - rewrite Rabs_pos_eq in Hk by lra. lra.
  - split; reflexivity.
Qed.

Lemma fin_of_key (z : F) r : num z -> fkey z = rs r -> Rabs r <= 2 ^ 60 -> is_finite z = true /\ B2R z = rnd r.
Proof.
  intros Hn Hk Hr. destruct (rs_fin r Hr) as [E1 E2]. rewrite E1 in Hk.
  destruct (num_small z Hn) as [H1 H2]; [rewrite Hk; eapply Rle_lt_trans; [exact E2|apply big_large]|]. split; congruence.
Qed.

Lemma flit_int z : (Z.abs z <= 2 ^ 53)%Z -> is_finite (flit z 1) = true /\ B2R (flit z 1) = IZR z.
Proof.
  intros H. unfold flit. destruct (of_Z_exact z H) as [Fz Rz]. destruct f1_fin as [F1 R1]. change (f_of_Z (Zpos 1)) with (f_of_Z 1).
  destruct (key_div _ _ Fz F1 ltac:(rewrite R1; lra)) as [H1 H2]. rewrite R1 in H2.
  replace (B2R (f_of_Z z) / 1) with (B2R (f_of_Z z)) in H2 by lra. rewrite rs_float in H2 by exact Fz.
  destruct (num_small _ H1) as [K1 K2].
  - rewrite H2. pose proof (fkey_bound _ Fz) as Hb. rewrite fkey_finite in Hb by exact Fz. apply Rabs_def1; lra.
  - split; [exact K1|]. congruence.
Qed.

Lemma rnd_rel r : 1 / 2 <= r -> rnd r <= r * (1 + bpow radix2 (-53)).
Proof.
  intros Hr. pose proof (relative_error_N_FLT radix2 (-1074) 53 ltac:(lia) (fun x => negb (Z.even x)) r) as He.
  assert (Hb : bpow radix2 (-1074 + 53 - 1) <= Rabs r).
  { rewrite Rabs_pos_eq by lra. apply Rle_trans with (bpow radix2 (-1)); [apply bpow_le; lia|]. simpl. lra. }
  specialize (He Hb). rewrite (Rabs_pos_eq r) in He by lra.
  change (round radix2 (FLT_exp (-1074) 53) (Znearest (fun x => negb (Z.even x))) r) with (rnd r) in He.
  apply Rabs_le_inv in He. change (- (53) + 1)%Z with (1 + -53)%Z in He. rewrite bpow_plus in He.
  change (bpow radix2 1) with 2 in He. set (q := bpow radix2 (-53)) in *. replace (/ 2 * (2 * q) * r) with (q * r) in He by lra. lra.
Qed.

(** the largest float below one *)
Lemma below_one (x : F) : is_finite x = true -> B2R x < 1 -> B2R x <= 1 - bpow radix2 (-53).
Proof.
  intros Hf H. replace (1 - bpow radix2 (-53)) with (pred radix2 (SpecFloat.fexp 53 1024) (bpow radix2 0)).
  - apply (pred_ge_gt radix2 (SpecFloat.fexp 53 1024)); [apply generic_format_B2R|apply generic_format_bpow; unfold SpecFloat.fexp, SpecFloat.emin; lia|simpl; exact H].
  - rewrite pred_bpow. reflexivity.
Qed.

Section Quantiles.
  Context (lib : libm).
  Notation o := (f64 lib).

  Lemma boot_positions_l (delta : F) (b : Z) : proper_prob delta -> (1 <= b <= 2 ^ 53)%Z ->
    exists i j, boot_lo o delta b = Ok i /\ boot_hi o delta b = Ok j /\ (0 <= i <= j)%Z /\ (j < b)%Z.
  Proof.
    intros [Fd Hd] Hb. unfold boot_lo, boot_hi, nint. cbn [nfloor nceil nmul ndiv nsub nlit f64].
    destruct (flit_int 2 ltac:(lia)) as [F2 R2]. destruct (flit_int 1 ltac:(lia)) as [F1 R1].
    destruct (flit_int b ltac:(lia)) as [Fb Rb].
    assert (Hb1 : 1 <= IZR b) by (apply IZR_le; lia).
    assert (Hb2 : IZR b <= 2 ^ 53).
    { replace (2 ^ 53) with (IZR (2 ^ 53)); [apply IZR_le; lia|]. rewrite pow2_IZR by lia. simpl. lra. }
    assert (H5360 : 2 ^ 53 <= 2 ^ 60) by (apply Rle_pow; [lra|lia]).
    set (eps := bpow radix2 (-53)) in *. assert (Heps : 0 < eps) by apply bpow_gt_0.
    assert (Heps1 : eps <= 1 / 2). { replace (1 / 2) with (bpow radix2 (-1)) by (simpl; lra). apply bpow_le. lia. }
    (* half of delta *)
    destruct (key_div delta (flit 2 1) Fd F2 ltac:(rewrite R2; lra)) as [N1 K1]. rewrite R2 in K1.
    destruct (fin_of_key _ _ N1 K1) as [Fh Rh]; [rewrite Rabs_pos_eq by lra; simpl; lra|].
    set (h := fdiv delta (flit 2 1)) in *.
    assert (Hh : 0 <= B2R h <= (1 - eps) / 2).
    { rewrite Rh. split; [rewrite <- rnd_0; apply rnd_mono; lra|].
      replace ((1 - eps) / 2) with (rnd ((1 - eps) / 2)).
      - apply rnd_mono. pose proof (below_one delta Fd ltac:(lra)) as Hl. fold eps in Hl. lra.
      - unfold rnd. apply round_generic; auto with typeclass_instances. apply generic_format_FLT.
        exists (Float radix2 (2 ^ 53 - 1) (-54)); [|simpl; lia|simpl; unfold SpecFloat.emin; lia].
        unfold F2R. cbn [Fnum Fexp]. rewrite minus_IZR, pow2_IZR by lia. unfold eps. rewrite Rmult_minus_distr_r, <- bpow_plus.
        change (53 + -54)%Z with (-1)%Z. change (-54)%Z with (-1 + -53)%Z. rewrite bpow_plus. simpl (bpow radix2 (-1)). lra. }
    (* low position *)
    destruct (key_mul h (flit b 1) Fh Fb) as [N2 K2]. rewrite Rb in K2.
    assert (Hhb : 0 <= B2R h * IZR b <= (1 - eps) / 2 * IZR b).
    { split; [apply Rmult_le_pos; lra|apply Rmult_le_compat_r; lra]. }
    destruct (fin_of_key _ _ N2 K2) as [Fx Rx].
    { rewrite Rabs_pos_eq by lra. nra. }
    set (x := fmul h (flit b 1)) in *.
    assert (Hx : 0 <= B2R x < IZR b / 2).
    { rewrite Rx. split; [rewrite <- rnd_0; apply rnd_mono; lra|].
      destruct (Rle_lt_dec (1 / 2) (B2R h * IZR b)) as [Hge|Hlt].
      - eapply Rle_lt_trans; [apply rnd_rel; exact Hge|]. fold eps.
        apply Rle_lt_trans with ((1 - eps) / 2 * IZR b * (1 + eps)); [apply Rmult_le_compat_r; lra|]. nra.
      - destruct (Z.eq_dec b 1) as [->|Hn1].
        + assert (Hle : B2R h * 1 <= (1 - eps) / 2) by lra.
          apply Rle_lt_trans with (rnd (B2R h)); [apply rnd_mono; lra|]. rewrite rnd_float. lra.
        + assert (2 <= IZR b) by (apply IZR_le; lia).
          apply Rle_lt_trans with (1 / 2); [|lra]. replace (1 / 2) with (bpow radix2 (-1)) by (simpl; lra).
          rewrite <- rnd_bpow by lia. apply rnd_mono. simpl. lra. }
    (* high position *)
    destruct (key_sub (flit 1 1) h F1 Fh) as [N3 K3]. rewrite R1 in K3.
    destruct (fin_of_key _ _ N3 K3) as [Fy Ry]; [rewrite Rabs_pos_eq by lra; simpl; lra|].
    set (y := fsub (flit 1 1) h) in *.
    assert (Hy : 1 / 2 <= B2R y <= 1).
    { rewrite Ry. split.
      - replace (1 / 2) with (bpow radix2 (-1)) by (simpl; lra). rewrite <- rnd_bpow by lia. apply rnd_mono. simpl. lra.
      - replace 1 with (bpow radix2 0) at 2 by (simpl; lra). rewrite <- rnd_bpow by lia. apply rnd_mono. simpl. lra. }
    destruct (key_mul y (flit b 1) Fy Fb) as [N4 K4]. rewrite Rb in K4.
    assert (Hyb : IZR b / 2 <= B2R y * IZR b <= IZR b).
    { split; [|rewrite <- (Rmult_1_l (IZR b)) at 2; apply Rmult_le_compat_r; lra].
      replace (IZR b / 2) with (1 / 2 * IZR b) by lra. apply Rmult_le_compat_r; lra. }
    destruct (fin_of_key _ _ N4 K4) as [Fz Rz]; [rewrite Rabs_pos_eq by lra; lra|].
    set (z := fmul y (flit b 1)) in *.
    assert (Hhalf : rnd (IZR b / 2) = IZR b / 2).
    { unfold rnd. apply round_generic; auto with typeclass_instances.
      destruct (Z.eq_dec b (2 ^ 53)) as [E|E].
      - replace (IZR b / 2) with (bpow radix2 52); [apply generic_format_bpow; unfold SpecFloat.fexp, SpecFloat.emin; lia|].
        rewrite E, pow2_IZR by lia. change 53%Z with (52 + 1)%Z. rewrite bpow_plus. simpl (bpow radix2 1). lra.
      - apply generic_format_FLT. exists (Float radix2 b (-1)); [unfold F2R; simpl; lra|simpl; lia|simpl; unfold SpecFloat.emin; lia]. }
    assert (Hz : IZR b / 2 <= B2R z <= IZR b).
    { rewrite Rz. split; [rewrite <- Hhalf; apply rnd_mono; lra|].
      apply Rle_trans with (rnd (IZR b)); [apply rnd_mono; lra|]. rewrite <- Rb, rnd_float. lra. }
    rewrite (f_floor_spec x Fx), (f_ceil_spec z Fz). cbn [bind].
    exists (Zfloor (B2R x)), (Zceil (B2R z) - 1)%Z. split; [reflexivity|]. split; [reflexivity|].
    split; [split|].
    - apply Zfloor_lub. simpl. lra.
    - assert (Zfloor (B2R x) < Zceil (B2R z))%Z; [|lia]. apply lt_IZR. pose proof (Zfloor_lb (B2R x)). pose proof (Zceil_ub (B2R z)). lra.
    - assert (Zceil (B2R z) <= b)%Z; [|lia]. apply Zceil_glb. lra.
  Qed.
End Quantiles.
