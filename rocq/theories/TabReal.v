(** TabularCPD in exact arithmetic and in binary64. *)
From Coq Require Import List Arith ZArith Reals Bool Lia Lra Permutation.
From Flocq Require Import Core BinarySingleNaN.
From Verif Require Import PyBase PyLemmas Num NumLemmas NumOps FloatOps NumLaws TabModel TabSpec TabProofs TabProofs2.
Import ListNotations.
Open Scope R_scope.

(** ** exact extended reals *)
Lemma nnat_x k : nnat xreal k = Fin (INR k).
Proof. unfold nnat, nint. cbn. f_equal. rewrite INR_IZR_INZ. field. Qed.
Lemma nint_x z : nint xreal z = Fin (IZR z).
Proof. unfold nint. cbn. f_equal. field. Qed.
Lemma xdiv_fin x y : y <> 0 -> xdiv (Fin x) (Fin y) = Fin (x / y).
Proof. intros H. cbn. destruct (Req_EM_T y 0); [contradiction|reflexivity]. Qed.
Lemma INR_pos k : (1 <= k)%nat -> 0 < INR k.
Proof. intros H. apply lt_0_INR. lia. Qed.
Lemma INR_pos_neq k : (1 <= k)%nat -> INR k <> 0.
Proof. intros H. apply INR_pos in H. lra. Qed.

Lemma xreal_exact B : exact_upto xreal B.
Proof.
  constructor.
  - intros a b _. rewrite !nnat_x. cbn. now rewrite plus_INR.
  - rewrite nnat_x, nint_x. cbn. destruct (Req_EM_T 0 0); [reflexivity|contradiction].
  - intros k Hk _. rewrite nnat_x, nint_x. cbn [neqb xreal xeqb].
    destruct (Req_EM_T (INR k) 0) as [E|E]; [|reflexivity]. apply INR_pos_neq in Hk. contradiction.
  - intros a b k _ Hb _ Hk _. rewrite !nnat_x, nint_x. cbn [nsub ndiv xreal].
    rewrite !xdiv_fin by (apply INR_pos_neq; assumption). cbn. f_equal. field. split; apply INR_pos_neq; assumption.
Qed.

(** ** binary64 *)
Lemma flit1 z : (Z.abs z <= 2 ^ 53)%Z -> is_finite (flit z 1) = true /\ B2R (flit z 1) = IZR z.
Proof.
  intros H. destruct (of_Z_exact z H) as [H1 H2]. destruct f1_fin as [G1 G2].
  unfold flit. change (f_of_Z (Zpos 1)) with (f_of_Z 1).
  pose proof (Bdiv_correct 53 1024 _ _ mode_NE (f_of_Z z) (f_of_Z 1)) as Hc. cbv zeta in Hc.
  rewrite G2 in Hc. specialize (Hc ltac:(lra)).
  replace (B2R (f_of_Z z) / 1) with (B2R (f_of_Z z)) in Hc by field.
  change (round radix2 (SpecFloat.fexp 53 1024) (round_mode mode_NE) (B2R (f_of_Z z))) with (rnd (B2R (f_of_Z z))) in Hc.
  rewrite rnd_float in Hc. rewrite Rlt_bool_true in Hc by (apply abs_B2R_lt_emax).
  destruct Hc as (R1 & R2 & _). unfold fdiv. rewrite R2, R1. rewrite H1, H2. auto.
Qed.
Lemma sign_eq (x y : F) : is_finite x = true -> is_finite y = true -> B2R x = B2R y -> B2R x <> 0 -> x = y.
Proof.
  intros Fx Fy E Hn. apply B2R_inj; [| |exact E].
  - destruct x; try discriminate; [cbn in Hn; lra|reflexivity].
  - destruct y; try discriminate; [cbn in E; lra|reflexivity].
Qed.
Lemma fin_of_val (x y : F) : is_finite x = true -> is_finite y = true -> B2R x = B2R y -> (B2R x = 0 -> Bsign x = Bsign y) -> x = y.
Proof.
  intros Fx Fy E Hs. destruct (Req_dec (B2R x) 0) as [H0|H0]; [|now apply sign_eq].
  specialize (Hs H0). rewrite H0 in E. symmetry in E.
  destruct x as [s| | |s m e He]; try discriminate.
  - destruct y as [s'| | |s' m' e' He']; try discriminate; [cbn in Hs; now subst|].
    cbn in E. apply eq_0_F2R in E. destruct s'; discriminate.
  - cbn in H0. apply eq_0_F2R in H0. destruct s; discriminate.
Qed.
Lemma fadd_nat (a b : nat) : (Z.of_nat (a + b) <= 2 ^ 53)%Z ->
  fadd (flit (Z.of_nat a) 1) (flit (Z.of_nat b) 1) = flit (Z.of_nat (a + b)) 1.
Proof.
  intros H. destruct (flit1 (Z.of_nat a)) as [A1 A2]; [lia|]. destruct (flit1 (Z.of_nat b)) as [B1 B2]; [lia|].
  destruct (flit1 (Z.of_nat (a + b))) as [C1 C2]; [lia|].
  pose proof (Bplus_correct 53 1024 _ _ mode_NE _ _ A1 B1) as Hc. cbv zeta in Hc.
  assert (E : B2R (flit (Z.of_nat a) 1) + B2R (flit (Z.of_nat b) 1) = B2R (flit (Z.of_nat (a + b)) 1)).
  { rewrite A2, B2, C2. rewrite <- plus_IZR. f_equal. lia. }
  rewrite E in Hc.
  change (round radix2 (SpecFloat.fexp 53 1024) (round_mode mode_NE) (B2R (flit (Z.of_nat (a + b)) 1))) with (rnd (B2R (flit (Z.of_nat (a + b)) 1))) in Hc.
  rewrite rnd_float in Hc. rewrite Rlt_bool_true in Hc by (apply abs_B2R_lt_emax).
  destruct Hc as (R1 & R2 & _). destruct (Nat.eq_dec (a + b) 0) as [E0|E0].
  - assert (a = 0%nat) by lia. assert (b = 0%nat) by lia. subst. apply B2SF_inj. vm_compute. reflexivity.
  - apply sign_eq; [exact R2|exact C1|exact R1|]. unfold fadd. rewrite R1, C2. apply not_0_IZR. lia.
Qed.
Lemma feqb_nat0 k : (Z.of_nat k <= 2 ^ 53)%Z -> feqb (flit (Z.of_nat k) 1) (flit 0 1) = (k =? 0)%nat.
Proof.
  intros H. destruct (flit1 (Z.of_nat k)) as [A1 A2]; [lia|]. destruct (flit1 0) as [B1 B2]; [lia|].
  assert (Fk : forall x : F, is_finite x = true -> num x) by (intros [ | | | ]; easy).
  destruct (k =? 0)%nat eqn:E.
  - apply Nat.eqb_eq in E. subst. vm_compute. reflexivity.
  - apply Nat.eqb_neq in E. destruct (feqb _ _) eqn:Ef; [|reflexivity]. apply feqb_spec in Ef as (_ & _ & Ek).
    rewrite !fkey_finite in Ek by assumption. rewrite A2, B2 in Ek. apply eq_IZR in Ek. lia.
Qed.
Lemma fdiv_ratio (a b : nat) : (a <= b)%nat -> (1 <= b)%nat -> (Z.of_nat b <= 2 ^ 53)%Z ->
  is_finite (fdiv (flit (Z.of_nat a) 1) (flit (Z.of_nat b) 1)) = true.
Proof.
  intros Hab Hb H. destruct (flit1 (Z.of_nat a)) as [A1 A2]; [lia|]. destruct (flit1 (Z.of_nat b)) as [B1 B2]; [lia|].
  pose proof (Bdiv_correct 53 1024 _ _ mode_NE (flit (Z.of_nat a) 1) (flit (Z.of_nat b) 1)) as Hc. cbv zeta in Hc.
  rewrite A2, B2 in Hc. rewrite <- !INR_IZR_INZ in Hc. specialize (Hc (INR_pos_neq _ Hb)).
  rewrite Rlt_bool_true in Hc; [destruct Hc as (_ & R2 & _); unfold fdiv; now rewrite R2|].
  assert (G : 0 <= INR a / INR b <= 1).
  { pose proof (INR_pos _ Hb). apply le_INR in Hab. split.
    - apply Rmult_le_pos; [apply pos_INR|]. left. now apply Rinv_0_lt_compat.
    - apply (Rmult_le_reg_r (INR b)); [assumption|]. field_simplify; lra. }
  change (round radix2 (SpecFloat.fexp 53 1024) (round_mode mode_NE)) with rnd.
  assert (G0 : 0 <= rnd (INR a / INR b)) by (rewrite <- rnd_0; apply rnd_mono, G).
  assert (G1 : rnd (INR a / INR b) <= 1).
  { destruct f1_fin as [F1 F2]. rewrite <- F2. rewrite <- (rnd_float (f_of_Z 1)). apply rnd_mono. rewrite F2. apply G. }
  rewrite Rabs_pos_eq by exact G0. eapply Rle_lt_trans; [exact G1|]. apply (bpow_lt radix2 0 1024). lia.
Qed.
Lemma fzero_share k : (1 <= k)%nat -> (Z.of_nat k <= 2 ^ 53)%Z -> fdiv (flit 0 1) (flit (Z.of_nat k) 1) = f0.
Proof.
  intros Hk H. rewrite nint0_f. destruct (flit1 (Z.of_nat k)) as [A1 A2]; [lia|].
  unfold fdiv. destruct (flit (Z.of_nat k) 1) as [s| | |s m e He] eqn:E; try discriminate.
  - cbn in A2. exfalso. symmetry in A2. apply eq_IZR in A2. lia.
  - destruct s; [|reflexivity]. exfalso.
    assert (B2R (B754_finite true m e He) < 0) by (cbn; apply F2R_lt_0; reflexivity).
    rewrite A2 in H0. apply lt_IZR in H0. lia.
Qed.
Lemma fsub_0 (x : F) : is_finite x = true -> fsub x f0 = x.
Proof. destruct x as [[]| | |s m e He]; try discriminate; reflexivity. Qed.

Lemma f64_exact lib B : (Z.of_nat B <= 2 ^ 53)%Z -> exact_upto (f64 lib) B.
Proof.
  intros HB. constructor.
  - intros a b H. apply fadd_nat. lia.
  - apply (feqb_nat0 0). lia.
  - intros k H1 H2. unfold nnat, nint. cbn [nlit neqb f64]. rewrite feqb_nat0 by lia. apply Nat.eqb_neq. lia.
  - intros a b k H1 H2 H3 H4 H5. unfold nnat, nint. cbn [nlit nsub ndiv f64]. rewrite fzero_share by lia.
    apply fsub_0, fdiv_ratio; lia.
Qed.

(** ** one row in exact arithmetic *)
Definition rshare (m : R) (p : key -> R) (zv : list key) : R :=
  rsum (map (fun z => viol m (p z)) zv) / INR (length (filter (fun z => rkeep m (p z)) zv)).
Definition rsm (m : R) (p : key -> R) (zv : list key) (z : key) : R :=
  if Rlt_dec (p z) m then m else if Rlt_dec (1 - m) (p z) then 1 - m else p z - rshare m p zv.

Lemma low_x m p : too_low xreal (Fin m) (Fin p) = if Rlt_dec p m then true else false.
Proof. reflexivity. Qed.
Lemma top_x m : nsub xreal (nint xreal 1) (Fin m) = Fin (1 - m).
Proof. rewrite nint_x. cbn. f_equal. Qed.
Lemma high_x m p : too_high xreal (Fin m) (Fin p) = if Rlt_dec p m then false else if Rlt_dec (1 - m) p then true else false.
Proof. unfold too_high. rewrite low_x, top_x. cbn. destruct (Rlt_dec p m), (Rlt_dec (1 - m) p); reflexivity. Qed.
Lemma violates_x m p : violates xreal (Fin m) (Fin p) = negb (rkeep m p).
Proof. unfold violates, rkeep. rewrite low_x, high_x. destruct (Rlt_dec p m), (Rlt_dec (1 - m) p); reflexivity. Qed.
Lemma filter_ext_in' {A} (f g : A -> bool) l : (forall a, In a l -> f a = g a) -> filter f l = filter g l.
Proof.
  induction l as [|a l IH]; intros H; [reflexivity|]. simpl. rewrite (H a (or_introl eq_refl)), IH; [reflexivity|].
  intros; apply H; now right.
Qed.
Lemma smoothed_x m v p zv z : In z zv -> (forall z, v z = Fin (p z)) ->
  smoothed xreal (Fin m) v zv z = Fin (rsm m p zv z).
Proof.
  intros Hz Hv. unfold smoothed, rsm. rewrite Hv, violates_x. unfold clip. rewrite low_x, high_x, top_x. unfold rkeep.
  destruct (Rlt_dec (p z) m) eqn:E1; [reflexivity|]. destruct (Rlt_dec (1 - m) (p z)) eqn:E2; [reflexivity|]. cbn [negb].
  assert (Ht : final xreal (Fin m) v zv = Fin (rsum (map (fun z => viol m (p z)) zv))).
  { unfold final.
    match goal with |- fold_left ?f0 _ _ = _ => set (f := f0) end.
    assert (St : forall a q, f (Fin a) q = Fin (a + viol m (p q))).
    { intros a q. unfold f. rewrite Hv, low_x, high_x, top_x. unfold viol.
      destruct (Rlt_dec (p q) m); [|destruct (Rlt_dec (1 - m) (p q))].
      - cbn. f_equal.
      - cbn. f_equal.
      - f_equal. lra. }
    assert (G : forall l a, fold_left f l (Fin a) = Fin (a + rsum (map (fun z => viol m (p z)) l))).
    { induction l as [|q l IH]; intros a; [simpl; f_equal; lra|].
      change (fold_left f (q :: l) (Fin a)) with (fold_left f l (f (Fin a) q)). rewrite St, IH. simpl. f_equal. lra. }
    rewrite (nint_x 0), G. f_equal. lra. }
  unfold share. rewrite Ht, nnat_x.
  replace (keep xreal (Fin m) v zv) with (filter (fun z => rkeep m (p z)) zv)
    by (apply filter_ext; intros q; rewrite Hv, violates_x, negb_involutive; reflexivity).
  cbn [ndiv xreal]. rewrite xdiv_fin.
  - reflexivity.
  - apply INR_pos_neq. assert (Hi : In z (filter (fun z => rkeep m (p z)) zv)).
    { apply filter_In. split; [exact Hz|]. unfold rkeep. now rewrite E1, E2. }
    destruct (filter _ zv); [destruct Hi|simpl; lia].
Qed.

Lemma rsum_app a b : rsum (a ++ b) = rsum a + rsum b.
Proof. induction a; simpl; lra. Qed.
Lemma rsum_nonneg l : (forall a, In a l -> 0 <= a) -> 0 <= rsum l.
Proof. induction l as [|a l IH]; simpl; intros H; [lra|]. specialize (IH (fun b Hb => H b (or_intror Hb))). pose proof (H a (or_introl eq_refl)). lra. Qed.
Lemma rsum_ge l a : (forall a, In a l -> 0 <= a) -> In a l -> a <= rsum l.
Proof.
  induction l as [|b l IH]; simpl; intros H Hi; [destruct Hi|].
  pose proof (rsum_nonneg l (fun b Hb => H b (or_intror Hb))). pose proof (H b (or_introl eq_refl)).
  destruct Hi as [->|Hi]; [lra|]. specialize (IH (fun b Hb => H b (or_intror Hb)) Hi). lra.
Qed.
Lemma rsum_const {A} (f : A -> R) c l : (forall a, In a l -> f a = c) -> rsum (map f l) = INR (length l) * c.
Proof.
  induction l as [|a l IH]; intros H; [simpl; lra|]. cbn [map rsum length]. rewrite IH by (intros; apply H; now right). rewrite S_INR, (H a (or_introl eq_refl)). lra.
Qed.
Lemma rsum_lt {A} (f : A -> R) c l : l <> [] -> (forall a, In a l -> f a < c) -> rsum (map f l) < INR (length l) * c.
Proof.
  destruct l as [|a l]; [congruence|]. intros _. revert a. induction l as [|b l IH]; intros a H.
  - simpl. specialize (H a (or_introl eq_refl)). lra.
  - cbn [map rsum]. specialize (IH b (fun x Hx => H x (or_intror Hx))). cbn [map rsum] in IH.
    change (length (a :: b :: l)) with (S (length (b :: l))). rewrite S_INR.
    specialize (H a (or_introl eq_refl)). lra.
Qed.
Lemma rsum_perm l l' : Permutation l l' -> rsum l = rsum l'.
Proof. induction 1; simpl; lra. Qed.

Section Row.
  Variables (m : R) (p : key -> R) (zv : list key).
  Let s := INR (length zv).
  Hypothesis Hp : forall z, 0 <= p z.
  Hypothesis Hsum : rsum (map p zv) = 1.
  Hypothesis Hm : 0 < m.
  Hypothesis Hms : m * s <= 1.

  Lemma row_no_high : (forall z, In z zv -> p z <= 1 - m) -> rsum (map (rsm m p zv) zv) = 1.
  Proof.
    intros Hh.
    set (kp := filter (fun z => rkeep m (p z)) zv).
    assert (Hk : kp <> []).
    { intros E. assert (Hl : forall z, In z zv -> p z < m).
      { intros z Hz. destruct (Rlt_dec (p z) m) as [|Hn]; [assumption|].
        assert (Hi : In z kp); [|rewrite E in Hi; destruct Hi].
        apply filter_In. split; [exact Hz|]. unfold rkeep. destruct (Rlt_dec (p z) m); [contradiction|].
        destruct (Rlt_dec (1 - m) (p z)); [|reflexivity]. specialize (Hh z Hz). lra. }
      assert (Hz : zv <> []) by (intros ->; simpl in Hsum; lra).
      pose proof (rsum_lt p m zv Hz Hl). fold s in H. lra. }
    assert (G : forall l c, (forall z, In z l -> p z <= 1 - m) ->
      rsum (map (fun z => if Rlt_dec (p z) m then m else if Rlt_dec (1 - m) (p z) then 1 - m else p z - c) l)
      = rsum (map p l) + rsum (map (fun z => viol m (p z)) l) - INR (length (filter (fun z => rkeep m (p z)) l)) * c).
    { induction l as [|a l IH]; intros c Hl; [simpl; lra|].
      cbn [map rsum filter]. rewrite IH by (intros; apply Hl; now right). specialize (Hl a (or_introl eq_refl)).
      unfold viol at 2, rkeep at 2. destruct (Rlt_dec (p a) m); [lra|]. destruct (Rlt_dec (1 - m) (p a)); [lra|].
      cbn [length]. rewrite S_INR. lra. }
    unfold rsm. rewrite G by exact Hh. rewrite Hsum. unfold rshare. fold kp.
    assert (INR (length kp) <> 0) by (apply INR_pos_neq; destruct kp; [congruence|simpl; lia]). field. assumption.
  Qed.

  Lemma row_high z0 : NoDup zv -> (2 <= length zv)%nat -> In z0 zv -> 1 - m < p z0 ->
    rsum (map (rsm m p zv) zv) = 1 + (s - 2) * m.
  Proof.
    intros Hd Hs Hz Hh. apply in_split in Hz as (l1 & l2 & E).
    assert (Hs2 : 2 <= s) by (unfold s; replace 2 with (INR 2) by (simpl; lra); now apply le_INR).
    assert (Hm2 : m <= 1 / 2) by nra.
    assert (Hrest : forall z, In z (l1 ++ l2) -> p z < m).
    { intros z Hi. rewrite E, map_app, rsum_app in Hsum. cbn [map rsum] in Hsum.
      assert (Hg : p z <= rsum (map p (l1 ++ l2))).
      { apply rsum_ge; [intros a Ha; apply in_map_iff in Ha as (q & <- & _); apply Hp|now apply in_map]. }
      rewrite map_app, rsum_app in Hg. lra. }
    assert (Hv : forall z, In z (l1 ++ l2) -> rsm m p zv z = m).
    { intros z Hi. unfold rsm. destruct (Rlt_dec (p z) m); [reflexivity|]. specialize (Hrest z Hi). lra. }
    rewrite E at 2. rewrite map_app, rsum_app. cbn [map rsum].
    rewrite (rsum_const _ m l1) by (intros; apply Hv, in_app_iff; now left).
    rewrite (rsum_const _ m l2) by (intros; apply Hv, in_app_iff; now right).
    assert (Hz0 : rsm m p zv z0 = 1 - m).
    { unfold rsm. destruct (Rlt_dec (p z0) m); [lra|]. destruct (Rlt_dec (1 - m) (p z0)); [reflexivity|contradiction]. }
    rewrite Hz0. unfold s. rewrite E, app_length. cbn [length]. rewrite plus_INR, S_INR. lra.
  Qed.

  Lemma row_single : length zv = 1%nat -> rsum (map (rsm m p zv) zv) = 1 - m.
  Proof.
    intros Hl. destruct zv as [|z [|]] eqn:E; try discriminate. subst s. simpl in Hsum, Hms.
    assert (p z = 1) by lra. cbn [map rsum]. unfold rsm. rewrite H.
    destruct (Rlt_dec 1 m); [lra|]. destruct (Rlt_dec (1 - m) 1); lra.
  Qed.
End Row.

(** ** the floor *)
Lemma min_prob_x k r m : 1 <= r -> min_prob xreal k (Fin r) = Ok m ->
  (1 <= k)%nat /\ m = Fin (1 / (INR k * r)) /\ 0 < 1 / (INR k * r) /\ 1 / (INR k * r) * INR k <= 1.
Proof.
  intros Hr. unfold min_prob, py_div. rewrite !nint_x, nnat_x.
  destruct (Nat.eq_dec k 0) as [->|Hk].
  { cbn. destruct (Req_EM_T 0 0); [discriminate|contradiction]. }
  assert (Hk1 : (1 <= k)%nat) by lia. pose proof (INR_pos _ Hk1) as Hp.
  assert (Hk2 : 1 <= INR k) by (replace 1 with (INR 1) by reflexivity; now apply le_INR).
  cbn [neqb xreal xeqb ndiv]. destruct (Req_EM_T (INR k) 0); [lra|]. cbn [bind].
  destruct (Req_EM_T r 0); [lra|]. cbn [bind]. rewrite !xdiv_fin by lra.
  assert (Hkr : 1 <= INR k * r) by nra.
  assert (Hi : 1 / INR k / r = 1 / (INR k * r)) by (field; lra). rewrite Hi.
  assert (Hle : 1 / (INR k * r) <= 1).
  { apply (Rmult_le_reg_r (INR k * r)); [lra|]. unfold Rdiv. rewrite Rmult_assoc, Rinv_l by lra. lra. }
  cbn [nltb xltb xreal]. destruct (Rlt_dec 1 (1 / (INR k * r))); [lra|]. intros H. injection H as <-.
  repeat split; [exact Hk1|apply Rdiv_lt_0_compat; lra|].
  replace (1 / (INR k * r) * INR k) with (1 / r) by (field; lra).
  apply (Rmult_le_reg_r r); [lra|]. unfold Rdiv. rewrite Rmult_assoc, Rinv_l by lra. lra.
Qed.

Lemma freq_x xs zs x z : In x xs -> freq xreal xs zs x z = Fin (rfreq xs zs x z).
Proof.
  intros H. unfold freq, rfreq. rewrite !nnat_x. apply xdiv_fin, INR_pos_neq.
  apply (count_occ_In key_eq), H.
Qed.
Lemma rfreq_nonneg xs zs x z : In x xs -> 0 <= rfreq xs zs x z.
Proof.
  intros H. apply Rmult_le_pos; [apply pos_INR|]. left. apply Rinv_0_lt_compat, INR_pos, (count_occ_In key_eq), H.
Qed.
Lemma rsum_INR l c : c <> 0 -> rsum (map (fun k => INR k / c) l) = INR (fold_right Nat.add 0%nat l) / c.
Proof.
  intros Hc. induction l as [|a l IH]; simpl; [field; assumption|]. rewrite IH, plus_INR. field. assumption.
Qed.
Lemma rfreq_sum xs zs x zv : length xs = length zs -> In x xs -> NoDup zv -> (forall z, In z zs -> In z zv) ->
  rsum (map (rfreq xs zs x) zv) = 1.
Proof.
  intros Hl Hx Hd Hz. unfold rfreq.
  assert (Hc : INR (n_x xs x) <> 0) by (apply INR_pos_neq, (count_occ_In key_eq), Hx).
  rewrite <- (map_map (n_xz xs zs x) (fun k => INR k / INR (n_x xs x))). rewrite rsum_INR by exact Hc.
  unfold n_xz. rewrite (count_split (combine xs zs) x zv Hd).
  - rewrite combine_fst by exact Hl. fold (n_x xs x). field. exact Hc.
  - intros [a b] Hu. apply Hz. eapply in_combine_r, Hu.
Qed.

(** the floor is a real number *)
Lemma min_prob_fin k r m : min_prob xreal k (Fin r) = Ok m -> exists m', m = Fin m'.
Proof.
  unfold min_prob, py_div. rewrite !nint_x, nnat_x. cbn [neqb xreal xeqb ndiv].
  destruct (Req_EM_T (INR k) 0); [discriminate|]. cbn [bind]. destruct (Req_EM_T r 0); [discriminate|]. cbn [bind].
  rewrite !xdiv_fin by assumption. intros H. injection H as <-. match goal with |- context [if ?b then _ else _] => destruct b end; cbn; eauto.
Qed.
Lemma min_prob_returns k r : (1 <= k)%nat -> r <> 0 -> exists m, min_prob xreal k (Fin r) = Ok m.
Proof.
  intros Hk Hr. unfold min_prob, py_div. rewrite !nint_x, nnat_x. cbn [neqb xreal xeqb ndiv].
  destruct (Req_EM_T (INR k) 0); [apply INR_pos_neq in Hk; contradiction|]. cbn [bind].
  destruct (Req_EM_T r 0); [contradiction|]. cbn [bind]. eauto.
Qed.

(** everything about a returned fit in exact arithmetic *)
Lemma fit_xg r t xs zs t' : reach xreal (Fin r) t -> tab_fit xreal t xs zs = (t', None) ->
  exists m, t_min t' = Some (Fin m) /\ min_prob xreal (length (t_zs t')) (Fin r) = Ok (Fin m)
    /\ length xs = length zs /\ NoDup (t_zs t') /\ (forall z, In z zs -> In z (t_zs t'))
    /\ t_zs t' = fold_left remember zs (t_zs t) /\ (forall x, In x (t_xs t) -> In x xs)
    /\ (forall x, In x xs ->
          (forall z, val xreal t' x z
             = if in_dec key_eq z (t_zs t') then Fin (rsm m (rfreq xs zs x) (t_zs t') z) else Fin 0)
          /\ dget (t_xmarg t') x = Some (ndiv xreal (nnat xreal (n_x xs x)) (nnat xreal (length xs))))
    /\ (forall x, ~ In x xs -> (forall z, val xreal t' x z = Fin 0) /\ dget (t_xmarg t') x = None).
Proof.
  intros Hre Hf.
  destruct (fit_inv xreal _ (xreal_exact (length xs)) _ _ _ _ _ Hre Hf (le_n _)) as (m & H1 & H2 & H3 & H4 & H5 & H6 & H7 & H8 & H9 & H10).
  destruct (min_prob_fin _ _ _ H3) as [m' ->]. exists m'. repeat split; auto.
  - intros z. rewrite (proj1 (H9 x H)). destruct (in_dec key_eq z (t_zs t')) as [Hi|Hi].
    + apply smoothed_x; [exact Hi|]. intros q. now apply freq_x.
    + rewrite nnat_x. reflexivity.
  - apply H9, H.
  - intros z. rewrite (proj1 (H10 x H)). rewrite nnat_x. reflexivity.
  - apply H10, H.
Qed.
(** ... and with a ratio of at least 1 *)
Lemma fit_x r t xs zs t' : 1 <= r -> reach xreal (Fin r) t -> tab_fit xreal t xs zs = (t', None) ->
  exists m, t_min t' = Some (Fin m) /\ m = 1 / (INR (length (t_zs t')) * r) /\ 0 < m /\ m * INR (length (t_zs t')) <= 1
    /\ length xs = length zs /\ NoDup (t_zs t') /\ (forall z, In z zs -> In z (t_zs t'))
    /\ t_zs t' = fold_left remember zs (t_zs t) /\ (forall x, In x (t_xs t) -> In x xs)
    /\ (forall x, In x xs ->
          (forall z, val xreal t' x z
             = if in_dec key_eq z (t_zs t') then Fin (rsm m (rfreq xs zs x) (t_zs t') z) else Fin 0)
          /\ dget (t_xmarg t') x = Some (ndiv xreal (nnat xreal (n_x xs x)) (nnat xreal (length xs))))
    /\ (forall x, ~ In x xs -> (forall z, val xreal t' x z = Fin 0) /\ dget (t_xmarg t') x = None).
Proof.
  intros Hr Hre Hf. destruct (fit_xg _ _ _ _ _ Hre Hf) as (m & H1 & H2 & H3).
  destruct (min_prob_x _ _ _ Hr H2) as (K1 & K2 & K3 & K4). injection K2 as ->.
  exists (1 / (INR (length (t_zs t')) * r)). auto.
Qed.

(** ** the order of the remembered values does not matter *)
Lemma filter_perm {A} (f : A -> bool) l l' : Permutation l l' -> Permutation (filter f l) (filter f l').
Proof.
  induction 1 as [|a l l' H IH|a b l|l1 l2 l3 H1 IH1 H2 IH2]; simpl.
  - constructor.
  - destruct (f a); auto.
  - destruct (f a), (f b); try apply perm_swap; reflexivity.
  - etransitivity; eassumption.
Qed.
Lemma rsm_perm m p zv zv' z : Permutation zv zv' -> rsm m p zv z = rsm m p zv' z.
Proof.
  intros H. unfold rsm, rshare.
  rewrite (rsum_perm _ _ (Permutation_map (fun z => viol m (p z)) H)).
  rewrite (Permutation_length (filter_perm (fun z => rkeep m (p z)) _ _ H)). reflexivity.
Qed.
Lemma rsm_ext m p p' zv z : (forall z, p z = p' z) -> rsm m p zv z = rsm m p' zv z.
Proof.
  intros H. unfold rsm, rshare. rewrite H.
  rewrite (map_ext (fun z => viol m (p z)) (fun z => viol m (p' z))) by (intros; now rewrite H).
  rewrite (filter_ext (fun z => rkeep m (p z)) (fun z => rkeep m (p' z))) by (intros; now rewrite H). reflexivity.
Qed.
Lemma remember_perm zs zs' : (forall z, In z zs <-> In z zs') ->
  Permutation (fold_left remember zs []) (fold_left remember zs' []).
Proof.
  intros H. apply NoDup_Permutation; [apply remember_all_nodup; constructor..|].
  intros z. rewrite !remember_all_in. simpl. rewrite H. reflexivity.
Qed.

(** ** a fit returns exactly on matching lengths, known support and non-zero ratio *)
Lemma fit_returns r t xs zs : r <> 0 -> reach xreal (Fin r) t -> length xs = length zs -> xs <> [] ->
  (forall x, In x (t_xs t) -> In x xs) -> exists t', tab_fit xreal t xs zs = (t', None).
Proof.
  intros Hr Hre Hl Hne Hx. destruct (reach_nodup _ _ _ Hre) as (D1 & D2 & D3).
  assert (Hk : (1 <= length (fold_left remember zs (t_zs t)))%nat).
  { destruct zs as [|z zs]; [destruct xs; [congruence|discriminate]|].
    assert (Hi : In z (fold_left remember (z :: zs) (t_zs t))) by (apply remember_all_in; left; now left).
    destruct (fold_left remember (z :: zs) (t_zs t)); [destruct Hi|simpl; lia]. }
  destruct (min_prob_returns _ r Hk Hr) as [m Hm]. rewrite <- D3 in Hm.
  destruct (fit_ok xreal _ (xreal_exact (length xs)) t xs zs m Hl (le_n _) D1 D2 Hx Hm) as (t' & E & _). eauto.
Qed.
