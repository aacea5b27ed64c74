(** Order facts of binary64: every non-NaN value has a real "key", and the float
    comparisons are comparisons of keys. *)
From Coq Require Import ZArith Reals Bool List Lia Lra.
From Flocq Require Import Core BinarySingleNaN.
From Verif Require Import PyBase Num.
Import ListNotations.
Open Scope R_scope.

Definition big : R := bpow radix2 1024.
(** real value, with the infinities beyond every finite value *)
Definition fkey (x : F) : R :=
  match x with
  | B754_infinity false => big
  | B754_infinity true => - big
  | _ => B2R x
  end.
Definition num (x : F) : Prop := fisnan x = false.

Lemma big_pos : 0 < big. Proof. apply bpow_gt_0. Qed.

Lemma fkey_finite (x : F) : is_finite x = true -> fkey x = B2R x.
Proof. destruct x as [| [] | |]; simpl; intros H; try reflexivity; discriminate. Qed.

Lemma fkey_bound (x : F) : is_finite x = true -> - big < fkey x < big.
Proof.
  intros H. rewrite (fkey_finite x H).
  pose proof (abs_B2R_lt_emax 53 1024 x) as Hb. fold big in Hb.
  apply Rabs_def2 in Hb. lra.
Qed.

Lemma fcompare_key (x y : F) : num x -> num y ->
  Bcompare x y = Some (Rcompare (fkey x) (fkey y)).
Proof.
  intros Hx Hy. pose proof big_pos as Hb.
  destruct (is_finite x) eqn:Fx, (is_finite y) eqn:Fy.
  - rewrite Bcompare_correct by assumption. now rewrite !fkey_finite.
  - pose proof (fkey_bound x Fx) as Hk.
    destruct y as [| [] | |]; try discriminate; change (fkey (B754_infinity _)) with (-big) || change (fkey (B754_infinity _)) with big.
    + rewrite Rcompare_Gt by lra. destruct x as [[]|[]| |[]]; try discriminate; reflexivity.
    + rewrite Rcompare_Lt by lra. destruct x as [[]|[]| |[]]; try discriminate; reflexivity.
  - pose proof (fkey_bound y Fy) as Hk.
    destruct x as [| [] | |]; try discriminate; change (fkey (B754_infinity _)) with (-big) || change (fkey (B754_infinity _)) with big.
    + rewrite Rcompare_Lt by lra. destruct y as [[]|[]| |[]]; try discriminate; reflexivity.
    + rewrite Rcompare_Gt by lra. destruct y as [[]|[]| |[]]; try discriminate; reflexivity.
  - destruct x as [| [] | |]; try discriminate; destruct y as [| [] | |]; try discriminate; simpl fkey.
    + rewrite Rcompare_Eq by lra; reflexivity.
    + rewrite Rcompare_Lt by lra; reflexivity.
    + rewrite Rcompare_Gt by lra; reflexivity.
    + rewrite Rcompare_Eq by lra; reflexivity.
Qed.

Lemma Bltb_Bcompare (x y : F) : fltb x y = match Bcompare x y with Some Lt => true | _ => false end.
Proof. reflexivity. Qed.
Lemma Bleb_Bcompare (x y : F) : fleb x y = match Bcompare x y with Some (Lt|Eq) => true | _ => false end.
Proof. reflexivity. Qed.
Lemma Beqb_Bcompare (x y : F) : feqb x y = match Bcompare x y with Some Eq => true | _ => false end.
Proof. reflexivity. Qed.

Lemma fltb_nan_l x y : fisnan x = true -> fltb x y = false.
Proof. destruct x as [| | |]; try discriminate. reflexivity. Qed.
Lemma fltb_nan_r x y : fisnan y = true -> fltb x y = false.
Proof. destruct y as [| | |]; try discriminate. destruct x as [|[]| |[]]; reflexivity. Qed.
Lemma feqb_nan_l x y : fisnan x = true -> feqb x y = false.
Proof. destruct x as [| | |]; try discriminate. reflexivity. Qed.
Lemma feqb_nan_r x y : fisnan y = true -> feqb x y = false.
Proof. destruct y as [| | |]; try discriminate. destruct x as [|[]| |[]]; reflexivity. Qed.
Lemma fleb_nan_l x y : fisnan x = true -> fleb x y = false.
Proof. destruct x as [| | |]; try discriminate. reflexivity. Qed.
Lemma fleb_nan_r x y : fisnan y = true -> fleb x y = false.
Proof. destruct y as [| | |]; try discriminate. destruct x as [|[]| |[]]; reflexivity. Qed.

Lemma fltb_spec x y : fltb x y = true <-> num x /\ num y /\ fkey x < fkey y.
Proof.
  split.
  - intros H.
    destruct (fisnan x) eqn:Nx; [rewrite fltb_nan_l in H by assumption; discriminate|].
    destruct (fisnan y) eqn:Ny; [rewrite fltb_nan_r in H by assumption; discriminate|].
    split; [exact Nx|]. split; [exact Ny|].
    rewrite Bltb_Bcompare, fcompare_key in H by assumption.
    destruct (Rcompare_spec (fkey x) (fkey y)); try discriminate. assumption.
  - intros (Nx & Ny & H). rewrite Bltb_Bcompare, fcompare_key by assumption.
    now rewrite Rcompare_Lt.
Qed.
Lemma fleb_spec x y : fleb x y = true <-> num x /\ num y /\ fkey x <= fkey y.
Proof.
  split.
  - intros H.
    destruct (fisnan x) eqn:Nx; [rewrite fleb_nan_l in H by assumption; discriminate|].
    destruct (fisnan y) eqn:Ny; [rewrite fleb_nan_r in H by assumption; discriminate|].
    split; [exact Nx|]. split; [exact Ny|].
    rewrite Bleb_Bcompare, fcompare_key in H by assumption.
    destruct (Rcompare_spec (fkey x) (fkey y)); try discriminate; lra.
  - intros (Nx & Ny & H). rewrite Bleb_Bcompare, fcompare_key by assumption.
    destruct (Rcompare_spec (fkey x) (fkey y)); try reflexivity; lra.
Qed.
Lemma feqb_spec x y : feqb x y = true <-> num x /\ num y /\ fkey x = fkey y.
Proof.
  split.
  - intros H.
    destruct (fisnan x) eqn:Nx; [rewrite feqb_nan_l in H by assumption; discriminate|].
    destruct (fisnan y) eqn:Ny; [rewrite feqb_nan_r in H by assumption; discriminate|].
    split; [exact Nx|]. split; [exact Ny|].
    rewrite Beqb_Bcompare, fcompare_key in H by assumption.
    destruct (Rcompare_spec (fkey x) (fkey y)); try discriminate. assumption.
  - intros (Nx & Ny & H). rewrite Beqb_Bcompare, fcompare_key by assumption.
    now rewrite Rcompare_Eq.
Qed.

Lemma fltb_num_false x y : num x -> num y -> (fltb x y = false <-> fkey y <= fkey x).
Proof.
  intros Nx Ny. destruct (fltb x y) eqn:E.
  - apply fltb_spec in E. split; [discriminate|lra].
  - split; [|reflexivity]. intros _.
    destruct (Rle_or_lt (fkey y) (fkey x)); [assumption|].
    assert (fltb x y = true) by (apply fltb_spec; auto). congruence.
Qed.

Lemma fisinf_false_num_finite x : num x -> fisinf x = false -> is_finite x = true.
Proof. destruct x; simpl; unfold num; simpl; congruence. Qed.

(** [py_min]/[py_max] over NaN-free lists. *)
Lemma fold_min_spec xs : forall x m, fold_left (min_step fltb) xs x = m -> num x -> Forall num xs ->
  In m (x :: xs) /\ num m /\ (forall y, In y (x :: xs) -> fkey m <= fkey y).
Proof.
  induction xs as [|y ys IH]; simpl; intros x m Hm Nx Hn.
  - subst. repeat split; auto. intros y [->|[]]; lra.
  - inversion Hn as [|? ? Ny Hys]; subst. 
    destruct (fltb y x) eqn:E.
    + assert (Hm : min_step fltb x y = y) by (unfold min_step; rewrite E; reflexivity).
      rewrite Hm.
      destruct (IH y _ eq_refl Ny Hys) as (Hin & Hnm & Hle). simpl in Hin. repeat split; auto.
      intros z [<-|[<-|Hz]].
      * apply fltb_spec in E as (_ & _ & E). specialize (Hle y (or_introl eq_refl)). lra.
      * apply Hle; simpl; auto.
      * apply Hle; simpl; auto.
    + assert (Hm : min_step fltb x y = x) by (unfold min_step; rewrite E; reflexivity).
      rewrite Hm. apply fltb_num_false in E; auto.
      destruct (IH x _ eq_refl Nx Hys) as (Hin & Hnm & Hle). simpl in Hin. repeat split; auto.
      * destruct Hin; auto.
      * intros z [<-|[<-|Hz]].
        -- apply Hle; simpl; auto.
        -- specialize (Hle x (or_introl eq_refl)). lra.
        -- apply Hle; simpl; auto.
Qed.
Lemma fold_max_spec xs : forall x m, fold_left (max_step fltb) xs x = m -> num x -> Forall num xs ->
  In m (x :: xs) /\ num m /\ (forall y, In y (x :: xs) -> fkey y <= fkey m).
Proof.
  induction xs as [|y ys IH]; simpl; intros x m Hm Nx Hn.
  - subst. repeat split; auto. intros y [->|[]]; lra.
  - inversion Hn as [|? ? Ny Hys]; subst. 
    destruct (fltb x y) eqn:E.
    + assert (Hm : max_step fltb x y = y) by (unfold max_step; rewrite E; reflexivity).
      rewrite Hm.
      destruct (IH y _ eq_refl Ny Hys) as (Hin & Hnm & Hle). simpl in Hin. repeat split; auto.
      intros z [<-|[<-|Hz]].
      * apply fltb_spec in E as (_ & _ & E). specialize (Hle y (or_introl eq_refl)). lra.
      * apply Hle; simpl; auto.
      * apply Hle; simpl; auto.
    + assert (Hm : max_step fltb x y = x) by (unfold max_step; rewrite E; reflexivity).
      rewrite Hm. apply fltb_num_false in E; auto.
      destruct (IH x _ eq_refl Nx Hys) as (Hin & Hnm & Hle). simpl in Hin. repeat split; auto.
      * destruct Hin; auto.
      * intros z [<-|[<-|Hz]].
        -- apply Hle; simpl; auto.
        -- specialize (Hle x (or_introl eq_refl)). lra.
        -- apply Hle; simpl; auto.
Qed.

Lemma py_min_spec l m : Forall num l -> py_min fltb l = Ok m ->
  In m l /\ num m /\ (forall y, In y l -> fkey m <= fkey y).
Proof.
  destruct l as [|x xs]; simpl; intros Hn H; [discriminate|].
  inversion Hn; subst. injection H as H. now apply fold_min_spec.
Qed.
Lemma py_max_spec l m : Forall num l -> py_max fltb l = Ok m ->
  In m l /\ num m /\ (forall y, In y l -> fkey y <= fkey m).
Proof.
  destruct l as [|x xs]; simpl; intros Hn H; [discriminate|].
  inversion Hn; subst. injection H as H. now apply fold_max_spec.
Qed.

(** Without any NaN assumption: a [py_min] result that is not NaN and its members. *)
Lemma min_step_cases x y :
  (min_step fltb x y = y /\ fltb y x = true) \/ (min_step fltb x y = x /\ fltb y x = false).
Proof. unfold min_step. destruct (fltb y x); auto. Qed.
Lemma fold_min_in xs x : In (fold_left (min_step fltb) xs x) (x :: xs).
Proof.
  revert x; induction xs as [|y ys IH]; simpl; intros x; [auto|].
  destruct (min_step_cases x y) as [[-> _]|[-> _]]; [destruct (IH y) as [E|E]|destruct (IH x) as [E|E]]; auto.
Qed.
Lemma py_min_in l m : py_min fltb l = Ok m -> In m l.
Proof. destruct l; simpl; intros H; [discriminate|]. injection H as <-. apply fold_min_in. Qed.

(** Even with NaNs present, a non-NaN [py_min] result is below every non-NaN entry. *)
Lemma fold_min_lower xs x m : fold_left (min_step fltb) xs x = m -> num x ->
  num m /\ forall y, In y (x :: xs) -> num y -> fkey m <= fkey y.
Proof.
  revert x; induction xs as [|y ys IH]; simpl; intros x Hm Nx.
  - subst. split; auto. intros y [->|[]] _; lra.
  - destruct (min_step_cases x y) as [[Hs E]|[Hs E]]; rewrite Hs in Hm.
    + apply fltb_spec in E as (Ny & _ & Hlt). destruct (IH y Hm Ny) as [Hn Hle].
      split; auto. intros z [<-|[<-|Hz]] Nz.
      * specialize (Hle y (or_introl eq_refl) Ny). lra.
      * apply Hle; simpl; auto.
      * apply Hle; simpl; auto.
    + destruct (IH x Hm Nx) as [Hn Hle]. split; auto. intros z [<-|[<-|Hz]] Nz.
      * apply Hle; simpl; auto.
      * apply fltb_num_false in E; auto. specialize (Hle x (or_introl eq_refl) Nx). lra.
      * apply Hle; simpl; auto.
Qed.
Lemma fold_min_nan xs x : fisnan x = true -> fold_left (min_step fltb) xs x = x.
Proof.
  induction xs as [|y ys IH]; simpl; intros Hx; [reflexivity|].
  destruct (min_step_cases x y) as [[Hs E]|[-> E]]; [rewrite fltb_nan_r in E by assumption; discriminate|auto].
Qed.
Lemma py_min_lower l m : py_min fltb l = Ok m -> num m ->
  forall y, In y l -> num y -> fkey m <= fkey y.
Proof.
  destruct l as [|x xs]; simpl; intros H Hm; [discriminate|]. injection H as H.
  destruct (fisnan x) eqn:Nx.
  - rewrite fold_min_nan in H by assumption. subst. unfold num in Hm. congruence.
  - exact (proj2 (fold_min_lower xs x m H Nx)).
Qed.

(** [np_argmin] over NaN-free lists: the first position of the minimum. *)
Lemma argmin_from_spec l : forall i best ib pre,
  num best -> Forall num l -> length pre = i ->
  nth_error pre ib = Some best -> (forall y, In y pre -> num y /\ fkey best <= fkey y) ->
  let r := argmin_from l i best ib in
  exists m, nth_error (pre ++ l) r = Some m /\ num m /\
            forall y, In y (pre ++ l) -> fkey m <= fkey y.
Proof.
  induction l as [|x xs IH]; simpl; intros i best ib pre Nb Hn Hl Hib Hpre.
  - exists best. rewrite app_nil_r. repeat split; auto. intros y Hy. apply Hpre, Hy.
  - inversion Hn as [|? ? Nx Hxs]; subst. unfold num in Nb, Nx. rewrite Nb, Nx. simpl.
    replace (pre ++ x :: xs) with ((pre ++ [x]) ++ xs) by (rewrite <- app_assoc; reflexivity).
    destruct (fltb x best) eqn:E.
    + apply fltb_spec in E as (_ & _ & Hlt).
      apply IH; auto.
      * rewrite app_length; simpl; lia.
      * rewrite nth_error_app2 by lia. now rewrite Nat.sub_diag.
      * intros y Hy. apply in_app_or in Hy as [Hy|[<-|[]]].
        -- destruct (Hpre y Hy). split; auto. lra.
        -- split; auto. lra.
    + apply fltb_num_false in E; auto.
      apply IH; auto.
      * rewrite app_length; simpl; lia.
      * rewrite nth_error_app1; auto. apply nth_error_Some. congruence.
      * intros y Hy. apply in_app_or in Hy as [Hy|[<-|[]]]; auto.
Qed.
Lemma np_argmin_spec l r : Forall num l -> np_argmin l = Ok r ->
  exists m, nth_error l r = Some m /\ num m /\ forall y, In y l -> fkey m <= fkey y.
Proof.
  destruct l as [|x xs]; simpl; intros Hn H; [discriminate|]. injection H as <-.
  inversion Hn; subst.
  apply (argmin_from_spec xs 1 x 0 [x]); auto.
  intros y [<-|[]]; split; auto; lra.
Qed.
Lemma argmin_from_bound l : forall i best ib, (ib < i)%nat ->
  (argmin_from l i best ib < i + length l)%nat.
Proof.
  induction l as [|x xs IH]; simpl; intros i best ib H; [lia|].
  destruct (fisnan best); [lia|].
  destruct (fisnan x || fltb x best); [specialize (IH (S i) x i)|specialize (IH (S i) best ib)]; lia.
Qed.
Lemma np_argmin_bound l r : np_argmin l = Ok r -> (r < length l)%nat.
Proof.
  destruct l as [|x xs]; simpl; intros H; [discriminate|]. injection H as <-.
  pose proof (argmin_from_bound xs 1 x 0 Nat.lt_0_1). lia.
Qed.

(** A float strictly below a correctly rounded difference is strictly below the
    exact difference. *)
Lemma fsub_lt_exact (u l t : F) :
  is_finite l = true -> is_finite t = true ->
  fltb u (fsub l t) = true -> fkey u < B2R l - B2R t.
Proof.
  intros Fl Ft H. apply fltb_spec in H as (Nu & Nd & Hlt).
  pose proof (Bminus_correct 53 1024 _ _ mode_NE l t Fl Ft) as Hc.
  change (Bminus mode_NE l t) with (fsub l t) in Hc.
  set (rnd := round radix2 (SpecFloat.fexp 53 1024) (round_mode mode_NE)) in *.
  destruct (Rlt_or_le (fkey u) (B2R l - B2R t)) as [|Hge]; [assumption|exfalso].
  destruct (Rlt_bool_spec (Rabs (rnd (B2R l - B2R t))) (bpow radix2 1024)) as [Hb|Hb].
  - destruct Hc as (HR & HF & _). rewrite (fkey_finite (fsub l t) HF) in Hlt. rewrite HR in Hlt.
    destruct (is_finite u) eqn:Fu.
    + rewrite (fkey_finite u Fu) in Hlt, Hge.
      assert (rnd (B2R l - B2R t) <= rnd (B2R u)).
      { apply round_le; auto with typeclass_instances. apply (fexp_correct 53 1024). exact prec_gt_0_53. }
      assert (rnd (B2R u) = B2R u).
      { apply round_generic; auto with typeclass_instances. apply generic_format_B2R. }
      lra.
    + apply Rabs_def2 in Hb. fold big in Hb.
      destruct u as [| [] | |]; try discriminate; simpl in Hlt, Hge; try lra.
      (* u = -inf: then key u = -big, and exact difference <= -big *)
      assert (rnd (B2R l - B2R t) <= rnd (- big)).
      { apply round_le; auto with typeclass_instances. apply (fexp_correct 53 1024). exact prec_gt_0_53. }
      assert (rnd (- big) = - big).
      { apply round_generic; auto with typeclass_instances.
        apply generic_format_opp. apply generic_format_bpow. unfold SpecFloat.fexp, SpecFloat.emin. lia. }
      lra.
  - destruct Hc as (HS & Hs).
    pose proof big_pos as Hbp.
    assert (Hov : fsub l t = B754_infinity (Bsign l)).
    { apply B2SF_inj. rewrite HS. destruct (Bsign l); reflexivity. }
    rewrite Hov in Hlt.
    destruct (Bsign l) eqn:Sl; simpl in Hlt.
    + destruct (is_finite u) eqn:Fu; [pose proof (fkey_bound u Fu); lra|].
      destruct u as [| [] | |]; try discriminate; simpl in Hlt; lra.
    + (* l >= 0 > t : exact difference is >= 0, overflow is positive *)
      assert (0 <= B2R l).
      { destruct l as [| | |s m e Hb']; simpl in *; try lra; try discriminate. subst s. simpl. apply F2R_ge_0. simpl. lia. }
      assert (B2R t <= 0).
      { destruct t as [s'| | |s m e Hb']; simpl in *; try lra; try discriminate. destruct s; simpl in *; try discriminate. apply F2R_le_0. simpl. lia. }
      rewrite Rabs_pos_eq in Hb.
      2:{ unfold rnd. rewrite <- (round_0 radix2 (SpecFloat.fexp 53 1024) (round_mode mode_NE)).
          apply round_le; auto with typeclass_instances. apply (fexp_correct 53 1024). exact prec_gt_0_53. lra. }
      fold big in Hb.
      destruct (is_finite u) eqn:Fu.
      * pose proof (fkey_bound u Fu). rewrite (fkey_finite u Fu) in Hlt, Hge, H1.
        assert (rnd (B2R l - B2R t) <= rnd (B2R u)).
        { apply round_le; auto with typeclass_instances. apply (fexp_correct 53 1024). exact prec_gt_0_53. }
        assert (rnd (B2R u) = B2R u).
        { apply round_generic; auto with typeclass_instances. apply generic_format_B2R. }
        lra.
      * destruct u as [| [] | |]; try discriminate; simpl in Hlt, Hge; lra.
Qed.
