(** Order laws shared by binary64 and the extended reals. *)
From Coq Require Import ZArith Reals Bool List Lia Lra.
From Flocq Require Import Core BinarySingleNaN.
From Verif Require Import PyBase Num NumLemmas NumOps FloatOps.
Import ListNotations.
Open Scope R_scope.

Definition okn {N} (o : numops N) (x : N) : Prop := nisnan o x = false.
Definition nneg {N} (o : numops N) (x : N) : Prop := nleb o (nint o 0) x = true.
Definition npos {N} (o : numops N) (x : N) : Prop := nltb o (nint o 0) x = true.
Definition nnonpos {N} (o : numops N) (x : N) : Prop := nleb o x (nint o 0) = true.

Record laws {N} (o : numops N) : Prop := mkLaws {
  l_refl : forall x, okn o x -> nleb o x x = true;
  l_trans : forall x y z, nleb o x y = true -> nleb o y z = true -> nleb o x z = true;
  l_total : forall x y, okn o x -> okn o y -> nltb o x y = negb (nleb o y x);
  l_tot : forall x y, okn o x -> okn o y -> nleb o x y = true \/ nleb o y x = true;
  l_le_ok : forall x y, nleb o x y = true -> okn o x /\ okn o y;
  l_lt_ok : forall x y, nltb o x y = true -> okn o x /\ okn o y;
  l_0 : okn o (nint o 0);
  l_sub : forall x y, nneg o y -> okn o (nsub o x y) -> nleb o (nsub o x y) x = true;
  l_add_up : forall x y, nneg o y -> okn o (nadd o x y) -> nleb o x (nadd o x y) = true;
  l_add_dn : forall x y, nnonpos o y -> okn o (nadd o x y) -> nleb o (nadd o x y) x = true;
  l_mul : forall x y, nneg o x -> nneg o y -> okn o (nmul o x y) -> nneg o (nmul o x y);
  l_mul_np : forall x y, nnonpos o x -> nneg o y -> okn o (nmul o x y) -> nnonpos o (nmul o x y);
  l_sq : forall x, okn o (nmul o x x) -> nneg o (nmul o x x);
  l_div : forall x y, nneg o x -> npos o y -> okn o (ndiv o x y) -> nneg o (ndiv o x y);
  l_sqrt : forall x, okn o (nsqrt o x) -> nneg o (nsqrt o x);
  l_nan_add : forall x y, okn o (nadd o x y) -> okn o x /\ okn o y;
  l_nan_sub : forall x y, okn o (nsub o x y) -> okn o x /\ okn o y;
  l_nan_mul : forall x y, okn o (nmul o x y) -> okn o x /\ okn o y;
  l_nan_div : forall x y, okn o (ndiv o x y) -> okn o x /\ okn o y;
  l_nan_sqrt : forall x, okn o (nsqrt o x) -> okn o x;
  l_mean : forall l, (forall x, In x l -> okn o x -> nneg o x) -> okn o (nmean o l) -> nneg o (nmean o l);
  l_lit : forall p q, (0 <= p)%Z -> nneg o (nlit o p q) \/ ~ okn o (nlit o p q);
  l_nat : forall n, (1 <= n)%nat -> npos o (nnat o n) /\ npos o (nsqrt o (nnat o n)) }.

(** the only assumption about np.mean in binary64: the mean of nonnegative numbers is
    nonnegative (or NaN) *)
Definition mean_sane (lib : libm) : Prop :=
  forall l, (forall x, In x l -> num x -> 0 <= fkey x) -> num (m_mean lib l) -> 0 <= fkey (m_mean lib l).

(** ** the float instance *)
Lemma nint0_f : flit 0 1 = f0. Proof. vm_compute. reflexivity. Qed.
Lemma f1_fin : is_finite (f_of_Z 1) = true /\ B2R (f_of_Z 1) = 1.
Proof. apply (of_Z_exact 1). lia. Qed.
Lemma num_cases (x : F) : num x -> is_finite x = true \/ x = finf \/ x = fninf.
Proof. destruct x as [|[]| |]; intros H; try discriminate; auto. Qed.

Lemma flit_key p q : num (flit p q) \/ ~ num (flit p q). Proof. unfold num. destruct (fisnan (flit p q)); [right; discriminate|left; reflexivity]. Qed.

Lemma of_Z_nonneg z : (0 <= z)%Z -> 0 <= fkey (f_of_Z z).
Proof. intros H. rewrite (proj2 (key_of_Z z)). apply rs_nonneg. apply IZR_le. exact H. Qed.

Lemma of_Z_big z : (1 <= z)%Z -> 1 <= fkey (f_of_Z z).
Proof.
  intros H. rewrite (proj2 (key_of_Z z)). rewrite <- (proj2 f1_fin), <- (rs_float _ (proj1 f1_fin)).
  apply rs_mono. rewrite (proj2 f1_fin). apply IZR_le. exact H.
Qed.

Lemma f_add_nan x y : num (fadd x y) -> num x /\ num y.
Proof. destruct x as [|[]| |], y as [|[]| |]; intros H; try discriminate; split; reflexivity. Qed.
Lemma f_sub_nan x y : num (fsub x y) -> num x /\ num y.
Proof. destruct x as [|[]| |], y as [|[]| |]; intros H; try discriminate; split; reflexivity. Qed.
Lemma f_mul_nan x y : num (fmul x y) -> num x /\ num y.
Proof. destruct x as [|[]| |], y as [|[]| |]; intros H; try discriminate; split; reflexivity. Qed.
Lemma f_div_nan x y : num (fdiv x y) -> num x /\ num y.
Proof. destruct x as [|[]| |], y as [|[]| |]; intros H; try discriminate; split; reflexivity. Qed.

Lemma fdiv_nonneg x y : 0 <= fkey x -> 0 < fkey y -> num (fdiv x y) -> 0 <= fkey (fdiv x y).
Proof.
  intros Hx Hy Hn. pose proof big_pos as Hb. destruct (f_div_nan x y Hn) as [Nx Ny].
  destruct (is_finite x) eqn:Fx, (is_finite y) eqn:Fy.
  - rewrite fkey_finite in Hx, Hy by assumption. rewrite (proj2 (key_div x y Fx Fy ltac:(lra))). apply rs_nonneg.
    apply Rle_mult_inv_pos; assumption.
  - destruct y as [|[]| |]; try discriminate; [simpl in Hy; lra|]. destruct x as [| | |]; try discriminate; simpl; lra.
  - destruct x as [|[]| |]; try discriminate; [simpl in Hx; lra|]. destruct y as [|[]| |[] m e H]; try discriminate; simpl in *; try lra.
    pose proof (F2R_lt_0 radix2 (Float radix2 (Zneg m) e)). simpl in H0. specialize (H0 ltac:(lia)). lra.
  - destruct x as [|[]| |]; try discriminate; destruct y as [|[]| |]; try discriminate.
Qed.

Lemma le_key x y : fleb x y = true <-> num x /\ num y /\ fkey x <= fkey y. Proof. apply fleb_spec. Qed.

Ltac infs x y := destruct x as [[]|[]| |[]]; destruct y as [[]|[]| |[]]; try discriminate; simpl in *; try lra; try discriminate.

Lemma f_sub_le x y : num y -> 0 <= fkey y -> num (fsub x y) -> num x /\ fkey (fsub x y) <= fkey x.
Proof.
  intros Ny Hy Hn. pose proof big_pos as Hb.
  assert (Nx : num x) by (destruct x; [reflexivity|reflexivity|exact Hn|reflexivity]). split; [exact Nx|].
  destruct (is_finite x) eqn:Fx, (is_finite y) eqn:Fy.
  - rewrite fkey_finite in Hy by assumption. rewrite (proj2 (key_sub x y Fx Fy)), (fkey_finite x Fx), <- (rs_float x Fx) at 1.
    rewrite <- (rs_float x Fx) at 2. rewrite !(rs_float x Fx). rewrite <- (rs_float x Fx) at 2. apply rs_mono. lra.
  - pose proof (fkey_bound x Fx). destruct y as [|[]| |]; try discriminate; [simpl in Hy; lra|].
    replace (fsub x (B754_infinity false)) with fninf by (destruct x as [|[]| |]; try discriminate; reflexivity). simpl. lra.
  - destruct x as [|[]| |]; try discriminate; destruct y as [|[]| |]; try discriminate; simpl; lra.
  - destruct x as [|[]| |]; try discriminate; destruct y as [|[]| |]; try discriminate; simpl in *; lra.
Qed.

Lemma f_add_key x y : num (fadd x y) ->
  (0 <= fkey y -> fkey x <= fkey (fadd x y)) /\ (fkey y <= 0 -> fkey (fadd x y) <= fkey x).
Proof.
  intros Hn. pose proof big_pos as Hb. destruct (f_add_nan x y Hn) as [Nx Ny].
  destruct (is_finite x) eqn:Fx, (is_finite y) eqn:Fy.
  - rewrite (proj2 (key_add x y Fx Fy)), !fkey_finite by assumption.
    split; intros H; [rewrite <- (rs_float x Fx) at 1|rewrite <- (rs_float x Fx) at 2]; apply rs_mono; lra.
  - pose proof (fkey_bound x Fx). destruct y as [|[]| |]; try discriminate.
    + replace (fadd x (B754_infinity true)) with fninf by (destruct x as [|[]| |]; try discriminate; reflexivity). simpl. lra.
    + replace (fadd x (B754_infinity false)) with finf by (destruct x as [|[]| |]; try discriminate; reflexivity). simpl. lra.
  - destruct x as [|[]| |]; try discriminate; destruct y as [|[]| |]; try discriminate; simpl; lra.
  - destruct x as [|[]| |]; try discriminate; destruct y as [|[]| |]; try discriminate; simpl in *; lra.
Qed.

Lemma fin_sign (x : F) s m e H : x = B754_finite s m e H -> if s then B2R x < 0 else 0 < B2R x.
Proof.
  intros ->. destruct s; simpl.
  - apply F2R_lt_0. simpl. lia.
  - apply F2R_gt_0. simpl. lia.
Qed.

Lemma fneg m e : F2R (Float radix2 (Zneg m) e) < 0. Proof. apply F2R_lt_0. simpl. lia. Qed.
Lemma fpos m e : 0 < F2R (Float radix2 (Zpos m) e). Proof. apply F2R_gt_0. simpl. lia. Qed.

Lemma f_mul_sign x y : num (fmul x y) ->
  (0 <= fkey x -> 0 <= fkey y -> 0 <= fkey (fmul x y)) /\ (fkey x <= 0 -> 0 <= fkey y -> fkey (fmul x y) <= 0) /\
  (x = y -> 0 <= fkey (fmul x y)).
Proof.
  intros Hn. pose proof big_pos as Hb. destruct (f_mul_nan x y Hn) as [Nx Ny].
  destruct (is_finite x) eqn:Fx, (is_finite y) eqn:Fy.
  - rewrite (proj2 (key_mul x y Fx Fy)), !fkey_finite by assumption.
    split; [|split]; intros H; [|intros H'|]; [intros H'; apply rs_nonneg; nra|apply rs_nonpos; nra|subst; apply rs_nonneg; nra].
  - destruct y as [|[]| |]; try discriminate; destruct x as [| | |[] m e H]; try discriminate;
      (split; [|split]); intros H1; try (intros H2); simpl in *; try lra; try discriminate;
      pose proof (fneg m e); pose proof (fpos m e); lra.
  - destruct x as [|[]| |]; try discriminate; destruct y as [| | |[] m e H]; try discriminate;
      (split; [|split]); intros H1; try (intros H2); simpl in *; try lra; try discriminate;
      pose proof (fneg m e); pose proof (fpos m e); lra.
  - destruct x as [|[]| |]; try discriminate; destruct y as [|[]| |]; try discriminate; simpl; (split; [|split]); intros; try lra; discriminate.
Qed.

Lemma f_sqrt_nonneg x : num (fsqrt x) -> num x /\ 0 <= fkey (fsqrt x).
Proof.
  intros Hn. assert (Nx : num x) by (destruct x; [reflexivity|reflexivity|exact Hn|reflexivity]). split; [exact Nx|].
  destruct (is_finite x) eqn:Fx.
  - destruct (key_sqrt x Fx Hn) as (HF & HR & _). rewrite (fkey_finite _ HF), HR. rewrite <- rnd_0. apply rnd_mono, sqrt_pos.
  - pose proof big_pos. destruct x as [|[]| |]; try discriminate; simpl; lra.
Qed.

Lemma f_nat_pos n : (1 <= n)%nat -> num (flit (Z.of_nat n) 1) /\ 1 <= fkey (flit (Z.of_nat n) 1).
Proof.
  intros H. unfold flit. pose proof (of_Z_big (Z.of_nat n) ltac:(lia)) as Hk. destruct (key_of_Z (Z.of_nat n)) as [Hn _].
  destruct f1_fin as [F1 R1]. change (f_of_Z (Zpos 1)) with (f_of_Z 1).
  destruct (is_finite (f_of_Z (Z.of_nat n))) eqn:Fx.
  - destruct (key_div _ _ Fx F1 ltac:(rewrite R1; lra)) as [H1 H2]. split; [exact H1|]. rewrite H2, R1.
    replace (B2R (f_of_Z (Z.of_nat n)) / 1) with (B2R (f_of_Z (Z.of_nat n))) by lra. rewrite rs_float by exact Fx. rewrite fkey_finite in Hk; assumption.
  - pose proof big_pos. destruct (f_of_Z (Z.of_nat n)) as [|[]| |]; try discriminate; [simpl in Hk; lra|].
    assert (E : fdiv (B754_infinity false) (f_of_Z 1) = finf) by (vm_compute; reflexivity). rewrite E. split; [reflexivity|].
    simpl in *. exact Hk.
Qed.

Lemma f64_laws lib : mean_sane lib -> laws (f64 lib).
Proof.
  intros Hm. pose proof big_pos as Hb.
  assert (E0 : nint (f64 lib) 0 = f0) by exact nint0_f.
  constructor; unfold okn, nneg, npos, nnonpos; try rewrite E0; simpl.
  - intros x H. apply fleb_spec. split; [exact H|]. split; [exact H|]. lra.
  - intros x y z H1 H2. apply fleb_spec in H1 as (A & _ & B). apply fleb_spec in H2 as (_ & C & D). apply fleb_spec. repeat split; try assumption. lra.
  - intros x y Hx Hy. destruct (fleb y x) eqn:E; simpl.
    + apply fleb_spec in E as (_ & _ & E). apply fltb_num_false; assumption.
    + apply fltb_spec. repeat split; try assumption. destruct (Rlt_or_le (fkey x) (fkey y)); [assumption|].
      assert (fleb y x = true) by (apply fleb_spec; auto). congruence.
  - intros x y Hx Hy. destruct (Rle_or_lt (fkey x) (fkey y)); [left|right]; apply fleb_spec; repeat split; try assumption; lra.
  - intros x y H. apply fleb_spec in H. tauto.
  - intros x y H. apply fltb_spec in H. tauto.
  - reflexivity.
  - intros x y Hy Hn. apply fleb_spec in Hy as (_ & Ny & Hy). simpl in Hy. destruct (f_sub_le x y Ny Hy Hn). apply fleb_spec. auto.
  - intros x y Hy Hn. apply fleb_spec in Hy as (_ & Ny & Hy). simpl in Hy. apply fleb_spec. split; [apply (f_add_nan x y Hn)|]. split; [exact Hn|]. apply (proj1 (f_add_key x y Hn)); assumption.
  - intros x y Hy Hn. apply fleb_spec in Hy as (Ny & _ & Hy). simpl in Hy. apply fleb_spec. split; [exact Hn|]. split; [apply (f_add_nan x y Hn)|]. apply (proj2 (f_add_key x y Hn)); assumption.
  - intros x y Hx Hy Hn. apply fleb_spec in Hx as (_ & _ & Hx). apply fleb_spec in Hy as (_ & _ & Hy). apply fleb_spec. split; [reflexivity|]. split; [exact Hn|]. apply (proj1 (f_mul_sign x y Hn)); assumption.
  - intros x y Hx Hy Hn. apply fleb_spec in Hx as (_ & _ & Hx). apply fleb_spec in Hy as (_ & _ & Hy). apply fleb_spec. split; [exact Hn|]. split; [reflexivity|]. apply (proj1 (proj2 (f_mul_sign x y Hn))); assumption.
  - intros x Hn. apply fleb_spec. split; [reflexivity|]. split; [exact Hn|]. apply (proj2 (proj2 (f_mul_sign x x Hn))); reflexivity.
  - intros x y Hx Hy Hn. apply fleb_spec in Hx as (_ & _ & Hx). apply fltb_spec in Hy as (_ & _ & Hy). apply fleb_spec. split; [reflexivity|]. split; [exact Hn|]. apply fdiv_nonneg; assumption.
  - intros x Hn. apply fleb_spec. split; [reflexivity|]. split; [exact Hn|]. apply f_sqrt_nonneg, Hn.
  - apply f_add_nan.
  - apply f_sub_nan.
  - apply f_mul_nan.
  - apply f_div_nan.
  - intros x Hn. apply f_sqrt_nonneg, Hn.
  - intros l Hl Hn. apply fleb_spec. split; [reflexivity|]. split; [exact Hn|]. apply Hm; [|exact Hn].
    intros x Hx Nx. specialize (Hl x Hx Nx). apply fleb_spec in Hl. apply Hl.
  - intros p q Hp. destruct (flit_key p q) as [Hn|Hn]; [left|right; exact Hn]. apply fleb_spec. split; [reflexivity|]. split; [exact Hn|].
    unfold flit. apply fdiv_nonneg; [apply of_Z_nonneg; exact Hp| |exact Hn]. pose proof (of_Z_big (Zpos q) ltac:(lia)). lra.
  - intros n Hn. destruct (f_nat_pos n Hn) as [N1 K1]. unfold nnat, nint. simpl. split.
    + apply fltb_spec. split; [reflexivity|]. split; [exact N1|]. simpl. lra.
    + apply fltb_spec. split; [reflexivity|].
      destruct (is_finite (flit (Z.of_nat n) 1)) eqn:Fx.
      * rewrite fkey_finite in K1 by exact Fx.
        assert (Hs : num (fsqrt (flit (Z.of_nat n) 1))).
        { destruct (flit (Z.of_nat n) 1) as [| | |[] m e H] eqn:E; try discriminate; try reflexivity.
          - pose proof (fneg m e). simpl in K1. lra.
          - pose proof (Bsqrt_correct 53 1024 _ _ mode_NE (B754_finite false m e H)) as (_ & HF & _). simpl is_finite in HF.
            change (is_finite (fsqrt (B754_finite false m e H)) = true) in HF. destruct (fsqrt (B754_finite false m e H)); try discriminate; reflexivity. }
        split; [exact Hs|]. destruct (key_sqrt _ Fx Hs) as (HF & HR & _). rewrite (fkey_finite _ HF), HR.
        simpl. destruct f1_fin as [F1 R1]. apply Rlt_le_trans with 1; [lra|]. rewrite <- R1, <- (rnd_float (f_of_Z 1)). apply rnd_mono.
        rewrite R1. rewrite <- sqrt_1. apply sqrt_le_1_alt. exact K1.
      * destruct (flit (Z.of_nat n) 1) as [|[]| |]; try discriminate; [simpl in K1; lra|]. split; [reflexivity|]. simpl. exact Hb.
Qed.

(** ** the exact instance *)
Lemma xltb_fin x y : xltb (Fin x) (Fin y) = true <-> x < y.
Proof. simpl. destruct (Rlt_dec x y); split; intros; try lra; try discriminate; reflexivity. Qed.
Lemma xeqb_fin x y : xeqb (Fin x) (Fin y) = true <-> x = y.
Proof. simpl. destruct (Req_EM_T x y); split; intros; try lra; try discriminate; reflexivity. Qed.
Lemma xleb_fin x y : xleb (Fin x) (Fin y) = true <-> x <= y.
Proof. unfold xleb. rewrite orb_true_iff, xltb_fin, xeqb_fin. lra. Qed.
Definition xle (a b : X) : Prop :=
  match a, b with
  | XNaN, _ | _, XNaN => False
  | Fin x, Fin y => x <= y
  | NInf, _ | _, PInf => True
  | _, _ => False
  end.
Lemma xleb_spec a b : xleb a b = true <-> xle a b.
Proof.
  destruct a, b; try apply xleb_fin; unfold xleb; simpl; split; intros; try discriminate; try contradiction; try reflexivity; exact I.
Qed.
Lemma xltb_spec a b : xltb a b = true <-> xle a b /\ ~ xle b a.
Proof. destruct a, b; try rewrite xltb_fin; simpl; split; intros; try discriminate; try tauto; try lra. Qed.
Lemma xsigned_nonneg x : 0 <= x -> xsigned x = PInf \/ xsigned x = XNaN.
Proof. intros H. unfold xsigned. destruct (Rlt_dec 0 x); auto. destruct (Rlt_dec x 0); auto. lra. Qed.
Lemma xsigned_nonpos x : x <= 0 -> xsigned x = NInf \/ xsigned x = XNaN.
Proof. intros H. unfold xsigned. destruct (Rlt_dec 0 x); [lra|]. destruct (Rlt_dec x 0); auto. Qed.

Lemma xadd_nonneg a b : xle (Fin 0) a -> xle (Fin 0) b -> xle (Fin 0) (xadd a b).
Proof. destruct a, b; simpl; try tauto. lra. Qed.
Lemma xsum_nan l : xisnan (xsum l) = false -> forall x, In x l -> xisnan x = false.
Proof.
  induction l as [|y l IH]; simpl; [tauto|]. intros H x [<-|Hx].
  - destruct y, (xsum l); try discriminate; reflexivity.
  - apply IH; [|exact Hx]. destruct (xsum l), y; try discriminate; reflexivity.
Qed.
Lemma xsum_nonneg l : (forall x, In x l -> xle (Fin 0) x) -> xle (Fin 0) (xsum l).
Proof. induction l as [|y l IH]; intros H; simpl; [lra|]. apply xadd_nonneg; [apply H; left; reflexivity|apply IH; intros; apply H; right; assumption]. Qed.

Lemma xreal_laws : laws xreal.
Proof.
  assert (E0 : nint xreal 0 = Fin 0) by (unfold nint; simpl; f_equal; lra).
  constructor; unfold okn, nneg, npos, nnonpos; try rewrite E0; cbn [nisnan nleb nltb nadd nsub nmul ndiv nsqrt nmean nlit xreal].
  - intros x H. apply xleb_spec. destruct x; simpl in *; try lra; try discriminate; exact I.
  - intros x y z. rewrite !xleb_spec. destruct x, y, z; simpl; try tauto. lra.
  - intros x y Hx Hy. destruct (xleb y x) eqn:E; simpl.
    + apply xleb_spec in E. destruct (xltb x y) eqn:E2; [|reflexivity]. apply xltb_spec in E2. tauto.
    + apply xltb_spec. assert (~ xle y x) by (rewrite <- xleb_spec, E; discriminate). split; [|assumption].
      destruct x, y; simpl in *; try discriminate; try tauto. lra.
  - intros x y. rewrite !xleb_spec. destruct x, y; simpl; intros; try discriminate; auto. lra.
  - intros x y H. apply xleb_spec in H. destruct x, y; simpl in *; try contradiction; auto.
  - intros x y H. apply xltb_spec in H. destruct x, y; simpl in *; try tauto; split; reflexivity.
  - reflexivity.
  - intros x y. rewrite !xleb_spec. destruct x, y; simpl; try tauto; try discriminate; try (intros; exact I); lra.
  - intros x y. rewrite !xleb_spec. destruct x, y; simpl; try tauto; try discriminate; try (intros; exact I); lra.
  - intros x y. rewrite !xleb_spec. destruct x, y; simpl; try tauto; try discriminate; try (intros; exact I); lra.
  - intros x y. rewrite !xleb_spec. destruct x as [x| | |], y as [y| | |]; simpl; try tauto; try discriminate; intros Hx Hy Hn.
    + nra.
    + destruct (xsigned_nonneg x Hx) as [E|E]; rewrite E in *; [exact I|discriminate].
    + destruct (xsigned_nonneg y Hy) as [E|E]; rewrite E in *; [exact I|discriminate].
  - intros x y. rewrite !xleb_spec. destruct x as [x| | |], y as [y| | |]; simpl; try tauto; try discriminate; intros Hx Hy Hn.
    + nra.
    + destruct (xsigned_nonpos x Hx) as [E|E]; rewrite E in *; [exact I|discriminate].
    + destruct (xsigned_nonneg y Hy) as [E|E]; rewrite E in *; [exact I|discriminate].
  - intros x. rewrite xleb_spec. destruct x as [x| | |]; simpl; try tauto; try discriminate; intros _. nra.
  - intros x y. rewrite !xleb_spec, xltb_spec. destruct x as [x| | |], y as [y| | |]; simpl; try tauto; try discriminate; intros Hx Hy Hn; try lra.
    + destruct (Req_EM_T y 0); [lra|]. simpl. apply Rle_mult_inv_pos; lra.
    + destruct (Rlt_dec y 0); [lra|]. exact I.
  - intros x. rewrite xleb_spec. destruct x as [x| | |]; simpl; try tauto; try discriminate.
    destruct (Rlt_dec x 0); simpl; [discriminate|]. intros _. apply sqrt_pos.
  - intros x y H. destruct x, y; try discriminate; auto.
  - intros x y H. destruct x, y; try discriminate; auto.
  - intros x y H. destruct x, y; try discriminate; auto.
  - intros x y H. destruct x, y; try discriminate; auto.
  - intros x H. destruct x; try discriminate; auto.
  - intros l Hl Hn. apply xleb_spec. unfold xmean in *.
    assert (Hs : xisnan (xsum l) = false) by (destruct (xsum l); try reflexivity; discriminate).
    assert (H0 : xle (Fin 0) (xsum l)).
    { apply xsum_nonneg. intros x Hx. apply xleb_spec. apply Hl; [exact Hx|]. eapply xsum_nan; eauto. }
    pose proof (pos_INR (length l)) as Hp.
    destruct (xsum l) as [r| | |]; simpl in *; try contradiction; try discriminate.
    + destruct (Req_EM_T (INR (length l)) 0).
      * destruct (xsigned_nonneg r H0) as [E|E]; rewrite E in *; [exact I|discriminate].
      * simpl. apply Rle_mult_inv_pos; lra.
    + destruct (Rlt_dec (INR (length l)) 0); [lra|exact I].
  - intros p q Hp. left. apply xleb_spec. simpl. apply Rle_mult_inv_pos; [apply IZR_le; exact Hp|apply IZR_lt; lia].
  - intros n Hn. unfold nnat, nint. cbn [nlit xreal].
    assert (H1 : 1 <= IZR (Z.of_nat n) / 1) by (replace (IZR (Z.of_nat n) / 1) with (IZR (Z.of_nat n)) by lra; apply (IZR_le 1); lia).
    split; [apply xltb_spec; simpl; lra|]. simpl xsqrt. destruct (Rlt_dec (IZR (Z.of_nat n) / 1) 0); [lra|].
    apply xltb_spec. simpl. assert (0 < sqrt (IZR (Z.of_nat n) / 1)) by (apply sqrt_lt_R0; lra). lra.
Qed.
