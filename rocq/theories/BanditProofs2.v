(** Constructor, accounting, termination, exit conditions. *)
From Coq Require Import List Arith ZArith Lia Bool Reals Lra.
From Flocq Require Import Core BinarySingleNaN.
From Verif Require Import PyBase PyLemmas Num NumLemmas BanditModel BanditSpec BanditProofs1.
Import ListNotations.
Open Scope nat_scope.

(** * constructor *)
Lemma f1_real : is_finite (f_of_Z 1) = true /\ B2R (f_of_Z 1) = 1%R.
Proof. split; [reflexivity|]. compute. lra. Qed.

Lemma proper_prob_spec x : fltb f0 x && fltb x (f_of_Z 1) = true <-> proper_prob x.
Proof.
  destruct f1_real as [Hf H1]. rewrite andb_true_iff, !fltb_spec.
  assert (K0 : fkey f0 = 0%R) by reflexivity.
  assert (K1 : fkey (f_of_Z 1) = 1%R) by (rewrite fkey_finite; auto).
  rewrite K0, K1. split.
  - intros [(_ & Hn & H0) (_ & _ & H2)].
    assert (is_finite x = true) as Hx.
    { destruct x as [[]|[]| |]; try reflexivity; simpl in *; try discriminate;
      pose proof big_pos; try lra. 
      assert (1 < big)%R by (change 1%R with (bpow radix2 0); apply bpow_lt; lia). lra. }
    split; [exact Hx|]. rewrite <- (fkey_finite x Hx). lra.
  - intros [Hx Hr]. rewrite <- (fkey_finite x Hx) in Hr.
    assert (num x) by (destruct x as [[]|[]| |]; try discriminate; reflexivity).
    repeat split; auto; try reflexivity; lra.
Qed.

Lemma not_negative_spec x : fltb x f0 = false <-> not_negative x.
Proof.
  assert (K0 : fkey f0 = 0%R) by reflexivity.
  unfold not_negative. destruct (fisnan x) eqn:En.
  - split; [auto|]. intros _. apply fltb_nan_l, En.
  - rewrite (fltb_num_false x f0 En eq_refl), K0. split.
    + intros H. right. destruct x as [s|[]| |s m e p]; try discriminate En; pose proof big_pos.
      * right. split; [reflexivity|]. simpl. lra.
      * simpl in H. lra.
      * left; reflexivity.
      * right. split; [reflexivity|]. exact H.
    + intros [H|[->|[Hx H]]]; [discriminate|simpl; pose proof big_pos; lra|]. rewrite fkey_finite; assumption.
Qed.

Lemma bandit_init_ok p tol c lim u cfg :
  bandit_init p tol c lim u = Ok cfg <->
  proper_prob p /\ not_negative tol /\ limits_ok c lim /\ cfg = mkConfig p tol c lim u.
Proof.
  unfold bandit_init. rewrite <- proper_prob_spec, <- not_negative_spec.
  destruct (fltb f0 p && fltb p (f_of_Z 1)); cbn [bind negb limits_ok].
  2:{ split; [discriminate|]. intros (H & _); discriminate. }
  destruct (fltb tol f0).
  { split; [discriminate|]. intros (_ & H & _); discriminate. }
  destruct c as [c|]; cbn [bind negb limits_ok].
  - rewrite <- proper_prob_spec. destruct (fltb f0 c && fltb c (f_of_Z 1)); cbn [bind negb limits_ok].
    + split; [intros H; injection H as <-; auto|]. intros (_ & _ & _ & ->). reflexivity.
    + split; [discriminate|]. intros (_ & _ & H & _); discriminate.
  - destruct lim; cbn [bind negb limits_ok].
    + split; [discriminate|]. intros (_ & _ & [z H] & _); discriminate.
    + split; [discriminate|]. intros (_ & _ & [z H] & _); discriminate.
    + split; [intros H; injection H as <-; eauto|]. intros (_ & _ & _ & ->). reflexivity.
Qed.

Lemma bandit_init_err p tol c lim u e :
  bandit_init p tol c lim u = Err e ->
  e = if match c, lim with None, LNone => fltb f0 p && fltb p (f_of_Z 1) && negb (fltb tol f0) | _, _ => false end
      then TypeError else ValueError.
Proof.
  unfold bandit_init. destruct (fltb f0 p && fltb p (f_of_Z 1)); cbn [bind negb andb];
  [|intros H; injection H as <-; destruct c, lim; reflexivity].
  destruct (fltb tol f0); cbn [bind negb andb]; [intros H; injection H as <-; destruct c, lim; reflexivity|].
  destruct c as [c|]; [destruct (fltb f0 c && fltb c (f_of_Z 1)); cbn [bind negb andb]; [discriminate|intros H; injection H as <-; destruct lim; reflexivity]|].
  destruct lim; cbn [bind negb andb]; intros H; try discriminate; injection H as <-; reflexivity.
Qed.

(** * exit conditions *)
Lemma select_map_seq (p : F -> bool) vs : forall k,
  select (map p vs) (seq k (length vs)) = filter (fun i => p (nth (i - k) vs fnan)) (seq k (length vs)).
Proof.
  induction vs as [|v vs IH]; intros k; [reflexivity|].
  cbn [length seq map select filter].
  replace (k - k) with 0 by lia. cbn [nth]. rewrite IH.
  assert (E : filter (fun i => p (nth (i - S k) vs fnan)) (seq (S k) (length vs)) =
              filter (fun i => p (nth (i - k) (v :: vs) fnan)) (seq (S k) (length vs))).
  { apply filter_ext_in. intros i Hi. apply in_seq in Hi. replace (i - k) with (S (i - S k)) by lia. reflexivity. }
  rewrite E. reflexivity.
Qed.

Lemma argmin_arms_spec vs best : argmin_arms vs = Ok best -> smallest_variance vs best.
Proof.
  unfold argmin_arms, smallest_variance. destruct vs as [|v vs'].
  { intros H; injection H as <-. auto. }
  remember (v :: vs') as vs eqn:Ev. intros H. apply bind_ok in H as (m & Hm & H). injection H as <-.
  rewrite (select_map_seq (fun x => feqb x m)).
  destruct (fisnan m) eqn:En.
  - left. exists v, vs'. split; [exact Ev|].
    assert (fisnan v = true).
    { rewrite Ev in Hm. simpl in Hm. injection Hm as Hm.
      destruct (fisnan v) eqn:Env; [reflexivity|exfalso].
      assert (forall xs x, num x -> num (fold_left (min_step fltb) xs x)) as Hk.
      { induction xs as [|y ys IH]; simpl; intros x Hx; [exact Hx|]. apply IH.
        destruct (min_step_cases x y) as [[-> Hlt]| [-> _]]; [|exact Hx].
        apply fltb_spec in Hlt. apply Hlt. }
      specialize (Hk vs' v Env). rewrite Hm in Hk. unfold num in Hk. congruence. }
    split; [assumption|].
    induction (seq 0 (length vs)); simpl; [reflexivity|]. rewrite feqb_nan_r by exact En. assumption.
  - right. right. exists m. split; [exact (py_min_in _ _ Hm)|]. split; [exact En|].
    split; [intros x Hx Hxn; eapply py_min_lower; eauto|].
    apply filter_ext. intros i. rewrite Nat.sub_0_r. reflexivity.
Qed.

Lemma argmins_nonempty vs best : Forall num vs -> vs <> [] -> smallest_variance vs best ->
  best <> [] /\ forall i, In i best <-> i < length vs /\ forall v, In v vs -> (fkey (nth i vs fnan) <= fkey v)%R.
Proof.
  intros Hn Hne [(v & vs' & -> & Hv & _)|[[-> _]|(m & Hin & Hm & Hlow & ->)]].
  - inversion Hn; subst. unfold num in *; congruence.
  - contradiction.
  - rewrite Forall_forall in Hn.
    assert (HH : forall i, In i (filter (fun i => feqb (nth i vs fnan) m) (seq 0 (length vs))) <->
                  i < length vs /\ forall v, In v vs -> (fkey (nth i vs fnan) <= fkey v)%R).
    { intros i. rewrite filter_In, in_seq, feqb_spec. split.
      - intros [Hi (Hni & _ & He)]. split; [lia|]. intros v Hv. rewrite He. apply Hlow; auto.
      - intros [Hi Hle]. split; [lia|].
        assert (In (nth i vs fnan) vs) by (apply nth_In; lia).
        repeat split; auto. specialize (Hle m Hin). specialize (Hlow (nth i vs fnan)). 
        assert (fkey m <= fkey (nth i vs fnan))%R by auto. lra. }
    split; [|exact HH].
    destruct (In_nth vs m fnan Hin) as (i & Hi & He).
    intros E. assert (In i []) as []. rewrite <- E. apply HH. split; [exact Hi|].
    rewrite He. intros v Hv. apply Hlow; auto.
Qed.

Lemma nth_error_without {X} i (l : list X) j x : i < length l -> nth_error l j = Some x -> j <> i -> In x (without i l).
Proof.
  intros Hi Hj Hne. unfold without. rewrite in_app_iff.
  destruct (Nat.lt_ge_cases j i) as [Hlt|Hge].
  - left. apply nth_error_In with j. rewrite <- Hj.
    rewrite <- (firstn_skipn i l) at 2. rewrite nth_error_app1; [reflexivity|].
    rewrite firstn_length. lia.
  - right. apply nth_error_In with (j - S i). rewrite <- Hj.
    rewrite <- (firstn_skipn (S i) l) at 2.
    rewrite nth_error_app2 by (rewrite firstn_length; lia). f_equal. rewrite firstn_length. lia.
Qed.

Lemma check_end_spec cfg rs best : not_negative (c_error_tol cfg) -> check_end cfg rs = Ok (true, best) ->
  exists i, best = [i] /\ separated (c_error_tol cfg) rs i /\ np_argmin (map r_var rs) = Ok i.
Proof.
  intros Ht. unfold check_end.
  destruct (existsb fisinf (map r_ucb rs)) eqn:Ei; [discriminate|].
  intros H. apply bind_ok in H as (m & Hm & H).
  destruct (fisnan m) eqn:Enm; [discriminate|].
  apply bind_ok in H as (i & Hi & H). apply bind_ok in H as (lo & Hlo & H).
  injection H as Hlt <-. exists i. split; [reflexivity|]. split; [|exact Hi].
  pose proof (np_argmin_bound _ _ Hi) as Hb. rewrite map_length in Hb.
  destruct (nth_error rs i) as [ri|] eqn:Er; [|apply nth_error_None in Er; lia].
  assert (Hu : nth i (map r_ucb rs) fnan = r_ucb ri).
  { apply nth_error_nth. rewrite nth_error_map, Er. reflexivity. }
  rewrite Hu in Hlt. set (t := c_error_tol cfg) in *.
  assert (Hlt' := Hlt). apply fltb_spec in Hlt' as (Hun & Hsn & Hk).
  assert (Huf : is_finite (r_ucb ri) = true).
  { apply fisinf_false_num_finite; [exact Hun|].
    destruct (fisinf (r_ucb ri)) eqn:E; [|reflexivity].
    rewrite (proj2 (existsb_exists fisinf (map r_ucb rs))) in Ei; [discriminate|].
    exists (r_ucb ri). split; [apply in_map; eapply nth_error_In; eauto|exact E]. }
  assert (Htf : is_finite t = true).
  { destruct Ht as [Ht|[Ht|[Ht _]]]; [| |exact Ht].
    - destruct t; try discriminate Ht. exfalso. clear -Hsn. unfold num, fisnan, fsub in Hsn. destruct lo; discriminate.
    - exfalso. rewrite Ht in Hk, Hsn. pose proof (fkey_bound _ Huf).
      unfold fsub in *. destruct lo as [s|[]| |s mm e p]; simpl in *; try discriminate; lra. }
  split; [exact Htf|]. exists ri. split; [exact Er|]. split; [exact Huf|].
  intros j rj Hj Hne.
  assert (Hin : In (r_lcb rj) (without i (map r_lcb rs))).
  { apply nth_error_without with j; [rewrite map_length; exact Hb| |exact Hne]. rewrite nth_error_map, Hj. reflexivity. }
  assert (Hlon : num lo).
  { unfold num. destruct lo; try reflexivity. exfalso. clear -Hsn. unfold num, fisnan, fsub in Hsn. destruct t; discriminate. }
  destruct (fisnan (r_lcb rj)) eqn:En; [auto|]. right.
  pose proof (py_min_lower _ _ Hlo Hlon (r_lcb rj) Hin En) as Hle.
  assert (Hgt : is_finite lo = true -> (fkey (r_ucb ri) < B2R lo - B2R t)%R).
  { intros Hlf. apply fsub_lt_exact; assumption. }
  rewrite (fkey_finite _ Huf) in Hgt.
  destruct (is_finite lo) eqn:Hlf.
  - specialize (Hgt eq_refl). rewrite (fkey_finite lo Hlf) in Hle.
    pose proof (fkey_bound lo Hlf) as Hlb. rewrite (fkey_finite lo Hlf) in Hlb.
    destruct (r_lcb rj) as [s|[]| |s mm e p] eqn:El; try discriminate En.
    + right. split; [reflexivity|]. rewrite fkey_finite in Hle by reflexivity. lra.
    + exfalso. simpl in Hle. lra.
    + left; reflexivity.
    + right. split; [reflexivity|]. rewrite fkey_finite in Hle by reflexivity. lra.
  - destruct lo as [s|[]| |s mm e p]; try discriminate.
    + exfalso. clear -Hk Huf Htf. pose proof (fkey_bound _ Huf). unfold fsub in Hk.
      destruct t as [s|[]| |s mm e p]; try discriminate; simpl in Hk; lra.
    + left. clear -Hle En. destruct (r_lcb rj) as [s|[]| |s mm e p] eqn:El; try discriminate En; try reflexivity; exfalso.
      * pose proof (fkey_bound (B754_zero s) eq_refl). simpl in *. lra.
      * simpl in Hle. pose proof big_pos. lra.
      * pose proof (fkey_bound (B754_finite s mm e p) eq_refl). change (fkey (B754_infinity false)) with big in Hle. lra.
Qed.

Lemma over_limit_exceeds n l : over_limit n l = Ok true <-> exceeds n l.
Proof. destruct l; simpl; try (split; [discriminate|tauto]). rewrite <- Z.ltb_lt. split; [intros H; injection H; auto|intros ->; reflexivity]. Qed.
Lemma over_limit_not n l : over_limit n l = Ok false -> ~ exceeds n l.
Proof. destruct l; simpl; try discriminate; [tauto|]. intros H; injection H as H. apply Z.ltb_ge in H. lia. Qed.

Section P.
  Context {A D G : Type} (ops : arm_ops A D G) (w : world D G) (cfg : config).
  Notation bstate := (bstate (A := A) (G := G)).
  Implicit Types s : bstate.

  Lemma collect_reported s rs : collect ops (b_arms s) = Ok rs <-> reported ops s rs.
  Proof.
    unfold collect, reported. generalize (b_arms s) as l. intros l. revert rs.
    induction l as [|a l IH]; intros rs; simpl.
    - split; [intros H; injection H as <-; constructor|]. intros H; inversion H; reflexivity.
    - split.
      + intros H. apply bind_ok in H as (r & Hr & H). apply bind_ok in H as (rs' & Hrs & H).
        injection H as <-. constructor; [apply read_reports, Hr|]. apply IH, Hrs.
      + intros H; inversion H; subst. apply read_reports in H2. rewrite H2. simpl.
        apply IH in H4. rewrite H4. reflexivity.
  Qed.

  (** the running total is the last cumulative entry *)
  Definition total_ok s := b_total s = last (b_cum s) 0.

  (** * accounting *)
  Definition uni_acc K s := shape ops K s /\ b_total s = length (b_cum s) * (K * c_units cfg) /\
    (forall t, t < length (b_cum s) -> nth_error (b_cum s) t = Some (S t * (K * c_units cfg))) /\
    (forall j h, nth_error (b_smp s) j = Some h -> h = repeat (c_units cfg) (length (b_cum s))).

  Lemma repeat_snoc {X} (x : X) n : repeat x n ++ [x] = repeat x (S n).
  Proof. induction n; simpl; [reflexivity|]. f_equal. exact IHn. Qed.

  Lemma uni_acc_next K s arms' g2 rs : uni_acc K s -> length arms' = K -> collect ops arms' = Ok rs ->
    uni_acc K (u_next cfg s arms' g2 rs).
  Proof.
    intros (Hs & Ht & Hc & Hm) Hl Hco. split; [apply shape_u_next; assumption|].
    pose proof (sh_arms _ _ _ Hs) as Ha. unfold u_next; simpl. rewrite app_length, Nat.add_1_r. rewrite Ha, Ht.
    split; [simpl; lia|]. split.
    - intros t Hlt. rewrite nth_error_snoc. destruct (Nat.eqb_spec t (length (b_cum s))) as [->|Hne]; [f_equal; simpl; lia|].
      apply Hc. lia.
    - intros j h. rewrite nth_push. destruct (nth_error (b_smp s) j) as [l|] eqn:El; [|discriminate].
      rewrite nth_error_map. destruct (nth_error (b_arms s) j); simpl; [|discriminate].
      intros H; injection H as <-. rewrite (Hm _ _ El). apply repeat_snoc.
  Qed.
  Lemma uni_acc_init arms g : uni_acc (length arms) (binit arms g).
  Proof.
    split; [apply shape_init|]. simpl. split; [reflexivity|]. split; [lia|].
    intros j h. rewrite nth_error_map. destruct (nth_error arms j); simpl; [|discriminate]. intros H; injection H as <-; reflexivity.
  Qed.
  Lemma uniform_acc K all s : uni_acc K s ->
    match uniform_step ops w cfg all s with
    | Continue s' => uni_acc K s' /\ ~ exceeds (b_total s') (c_limit cfg)
                     /\ length (b_cum s') = S (length (b_cum s))
    | Finish _ s' => uni_acc K s' /\ length (b_cum s') = S (length (b_cum s))
    | Fail _ _ => True end.
  Proof.
    intros Hs. pose proof (uniform_step_inv ops w cfg all s) as H.
    destruct (uniform_step ops w cfg all s) as [s'|best s'|e s']; [| |exact I].
    - destruct H as (start & d & g1 & arms' & g2 & rs & b & _ & _ & Hp & Hc & -> & Ho & _).
      split; [|split]. { apply uni_acc_next; auto. eapply pull_all_len'; [apply Hs|exact Hp]. }
      apply over_limit_not, Ho. simpl. rewrite app_length. simpl. lia.
    - destruct H as (start & d & g1 & arms' & g2 & rs & _ & _ & Hp & Hc & -> & _).
      split. { apply uni_acc_next; auto. eapply pull_all_len'; [apply Hs|exact Hp]. }
      simpl. rewrite app_length. simpl. lia.
  Qed.

  Lemma run_uniform_acc fuel all arms g :
    match run Uniform ops w cfg fuel all arms g with
    | Returned _ s' => uni_acc (length arms) s' /\ 1 <= length (b_cum s') /\
         (1 < length (b_cum s') -> ~ exceeds ((length (b_cum s') - 1) * (length arms * c_units cfg)) (c_limit cfg))
    | Raised _ _ => True
    | OutOfFuel s' => uni_acc (length arms) s' end.
  Proof.
    pose proof (run_inv ops w cfg Uniform fuel all arms g
      (fun s => uni_acc (length arms) s /\ (1 <= length (b_cum s) -> ~ exceeds (b_total s) (c_limit cfg)))
      (fun _ s => uni_acc (length arms) s /\ 1 <= length (b_cum s) /\
         (1 < length (b_cum s) -> ~ exceeds ((length (b_cum s) - 1) * (length arms * c_units cfg)) (c_limit cfg)))) as H.
    assert (match run Uniform ops w cfg fuel all arms g with
    | Returned _ s' => uni_acc (length arms) s' /\ 1 <= length (b_cum s') /\
         (1 < length (b_cum s') -> ~ exceeds ((length (b_cum s') - 1) * (length arms * c_units cfg)) (c_limit cfg))
    | Raised _ _ => True
    | OutOfFuel s' => uni_acc (length arms) s' /\ (1 <= length (b_cum s') -> ~ exceeds (b_total s') (c_limit cfg)) end) as HH.
    { apply H; clear H.
      - intros _. split; [apply uni_acc_init|]. simpl. lia.
      - discriminate.
      - intros s [Hs Hne]. pose proof (uniform_acc _ all _ Hs) as Hx.
        destruct (uniform_step ops w cfg all s) as [s'|b s'|]; [| |exact I].
        + split; [tauto|]. intros _. apply Hx.
        + destruct Hx as [Hx Hl]. split; [exact Hx|]. split; [lia|]. intros Hlt.
          rewrite Hl. simpl. rewrite Nat.sub_0_r. destruct Hs as (_ & Ht & _). rewrite <- Ht. apply Hne. lia. }
    destruct (run Uniform ops w cfg fuel all arms g); tauto.
  Qed.

  Lemma div_le_mult a b c : 0 < b -> a * b <= c -> a <= c / b.
  Proof. intros Hb H. apply Nat.div_le_lower_bound; lia. Qed.

  Lemma uniform_terminates z fuel all arms g : c_limit cfg = LInt z ->
    0 < length arms -> 0 < c_units cfg ->
    Z.to_nat z / (length arms * c_units cfg) < fuel ->
    terminated (run Uniform ops w cfg fuel all arms g).
  Proof.
    intros Hz HK Hu Hf. unfold terminated, run, run_uniform.
    apply (loop_terminates _ (uni_acc (length arms)) (fun s => Z.to_nat z / (length arms * c_units cfg) - length (b_cum s))).
    2: apply uni_acc_init. 2:{ simpl. lia. }
    intros s Hs. pose proof (uniform_acc _ all _ Hs) as Hx.
    destruct (uniform_step ops w cfg all s) as [s'|b s'|]; [|exact I|exact I].
    destruct Hx as (Hs' & Hne & Hl). split; [exact Hs'|].
    destruct Hs' as (_ & Ht & _). rewrite Ht, Hz in Hne. simpl in Hne.
    assert (length (b_cum s') <= Z.to_nat z / (length arms * c_units cfg)) by (apply div_le_mult; [lia|]; lia).
    lia.
  Qed.

  Lemma uniform_rounds z fuel all arms g best s : c_limit cfg = LInt z ->
    0 < length arms -> 0 < c_units cfg ->
    run Uniform ops w cfg fuel all arms g = Returned best s ->
    length (b_cum s) <= Z.to_nat z / (length arms * c_units cfg) + 1 /\
    b_total s <= Z.to_nat z + length arms * c_units cfg.
  Proof.
    intros Hz HK Hu Hr. pose proof (run_uniform_acc fuel all arms g) as H. rewrite Hr in H.
    destruct H as ((_ & Ht & _) & H1 & Hne). rewrite Hz in Hne. simpl in Hne.
    set (KU := length arms * c_units cfg) in *. assert (0 < KU) by (unfold KU; lia).
    assert ((length (b_cum s) - 1) * KU <= Z.to_nat z).
    { destruct (Nat.eq_dec (length (b_cum s)) 1) as [->|]; [simpl; lia|]. specialize (Hne ltac:(lia)). lia. }
    split.
    - pose proof (div_le_mult _ _ _ H H0). lia.
    - rewrite Ht. fold KU. replace (length (b_cum s)) with (S (length (b_cum s) - 1)) by lia. simpl. lia.
  Qed.

  (** * LUCB *)
  Definition lucb_acc K s := shape ops K s /\ 1 <= length (b_cum s) /\
    b_total s = K * c_units cfg + (length (b_cum s) - 1) * (2 * c_units cfg) /\
    (forall t, t < length (b_cum s) -> nth_error (b_cum s) t = Some (K * c_units cfg + t * (2 * c_units cfg))).

  Lemma lucb_acc_next K s is arms' g2 rs : lucb_acc K s -> length arms' = K -> collect ops arms' = Ok rs ->
    lucb_acc K (l_next cfg s is arms' g2 rs).
  Proof.
    intros (Hs & H1 & Ht & Hc) Hl Hco. split; [apply shape_l_next; assumption|].
    unfold l_next; simpl. rewrite app_length, Nat.add_1_r. simpl length. split; [lia|]. split; [rewrite Ht; nia|].
    intros t Hlt. rewrite nth_error_snoc. destruct (Nat.eqb_spec t (length (b_cum s))) as [->|Hne].
    - f_equal. rewrite Ht. nia.
    - apply Hc. lia.
  Qed.
  Lemma lucb_acc_start K s arms g all : length arms = K ->
    lucb_start ops w cfg all arms g = Continue s -> lucb_acc K s /\ length (b_cum s) = 1.
  Proof.
    intros HK E. pose proof (lucb_start_inv ops w cfg all arms g) as H. rewrite E in H.
    destruct H as (d & g1 & arms' & g2 & rs & _ & Hp & Hc & ->).
    split; [|reflexivity]. split.
    { apply shape_u_next; [rewrite <- HK; apply shape_init| |exact Hc]. eapply pull_all_len'; [exact HK|exact Hp]. }
    simpl. split; [lia|]. split; [nia|]. intros [|t] Ht; [simpl; f_equal; nia|lia].
  Qed.
  Lemma lucb_acc_step K all s : lucb_acc K s ->
    match lucb_step ops w cfg all s with
    | Continue s' => lucb_acc K s' /\ ~ exceeds (b_total s) (c_limit cfg)
                     /\ length (b_cum s') = S (length (b_cum s))
    | Finish _ s' => lucb_acc K s' /\ (s' = s \/ (~ exceeds (b_total s) (c_limit cfg) /\ length (b_cum s') = S (length (b_cum s))))
    | Fail _ _ => True end.
  Proof.
    intros Hs. pose proof (lucb_step_inv ops w cfg all s) as H.
    destruct (lucb_step ops w cfg all s) as [s'|best s'|e s']; [| |exact I].
    - destruct H as (Ho & is & g1 & arms' & g2 & rs & b & _ & Hp & Hc & -> & _).
      split; [|split]. { apply lucb_acc_next; auto. eapply pull_list_len'; [apply Hs|exact Hp]. }
      apply over_limit_not, Ho. simpl. rewrite app_length. simpl. lia.
    - destruct H as [(-> & _)|(Ho & is & g1 & arms' & g2 & rs & _ & Hp & Hc & -> & _)]; [auto|].
      split. { apply lucb_acc_next; auto. eapply pull_list_len'; [apply Hs|exact Hp]. }
      right. split; [apply over_limit_not, Ho|]. simpl. rewrite app_length. simpl. lia.
  Qed.

  Definition lucb_J K s := lucb_acc K s /\ (1 < length (b_cum s) -> ~ exceeds (K * c_units cfg + (length (b_cum s) - 2) * (2 * c_units cfg)) (c_limit cfg)).
  Lemma run_lucb_acc fuel all arms g :
    match run LUCB ops w cfg fuel all arms g with
    | Returned _ s' => lucb_J (length arms) s'
    | Raised _ _ => True
    | OutOfFuel s' => lucb_J (length arms) s' end.
  Proof.
    apply run_inv; [congruence| |].
    - intros _. pose proof (lucb_acc_start (length arms)) as H.
      destruct (lucb_start ops w cfg all arms g) eqn:E; [|exact I|exact I].
      destruct (H _ _ _ _ eq_refl E) as [H1 H2]. split; [exact H1|]. lia.
    - intros s [Hs Hne]. pose proof (lucb_acc_step _ all _ Hs) as Hx.
      assert (Ht : b_total s = length arms * c_units cfg + (length (b_cum s) - 1) * (2 * c_units cfg)) by apply Hs.
      destruct (lucb_step ops w cfg all s) as [s'|b s'|]; [| |exact I].
      + destruct Hx as (Hs' & Hn & Hl). split; [exact Hs'|]. intros _. rewrite Hl. simpl. rewrite Ht in Hn. exact Hn.
      + destruct Hx as (Hs' & [->|[Hn Hl]]); [split; assumption|]. split; [exact Hs'|]. intros _. rewrite Hl. simpl. rewrite Ht in Hn. exact Hn.
  Qed.

  Lemma lucb_terminates z fuel all arms g : c_limit cfg = LInt z -> 0 < c_units cfg ->
    (Z.to_nat z - length arms * c_units cfg) / (2 * c_units cfg) + 1 < fuel ->
    terminated (run LUCB ops w cfg fuel all arms g).
  Proof.
    intros Hz Hu Hf. unfold terminated, run, run_lucb.
    pose proof (lucb_acc_start (length arms)) as H0. pose proof (lucb_start_inv ops w cfg all arms g) as Hi.
    destruct (lucb_start ops w cfg all arms g) eqn:E; [|contradiction|exact I].
    destruct (H0 _ _ _ _ eq_refl E) as [H1 H2].
    set (M := (Z.to_nat z - length arms * c_units cfg) / (2 * c_units cfg)) in *.
    apply (loop_terminates _ (lucb_acc (length arms)) (fun s => M + 2 - length (b_cum s))).
    2: exact H1. 2: lia.
    intros s0 Hs. pose proof (lucb_acc_step _ all _ Hs) as Hx.
    destruct (lucb_step ops w cfg all s0) as [s'|b s'|]; [|exact I|exact I].
    destruct Hx as (Hs' & Hne & Hl). split; [exact Hs'|].
    destruct Hs as (_ & Hge & Ht & _). rewrite Ht, Hz in Hne. simpl in Hne.
    assert (length (b_cum s0) - 1 <= M) by (unfold M; apply div_le_mult; [lia|]; nia).
    lia.
  Qed.

  Lemma lucb_rounds z fuel all arms g best s : c_limit cfg = LInt z -> 0 < c_units cfg ->
    run LUCB ops w cfg fuel all arms g = Returned best s ->
    length (b_cum s) <= (Z.to_nat z - length arms * c_units cfg) / (2 * c_units cfg) + 2 /\
    b_total s <= Z.to_nat z + Nat.max (length arms) 2 * c_units cfg.
  Proof.
    intros Hz Hu Hr. pose proof (run_lucb_acc fuel all arms g) as H. rewrite Hr in H.
    destruct H as ((_ & H1 & Ht & _) & Hne). rewrite Hz in Hne. simpl in Hne.
    destruct (Nat.eq_dec (length (b_cum s)) 1) as [E|E].
    - split; [lia|]. rewrite Ht, E. simpl. nia.
    - specialize (Hne ltac:(lia)). split.
      + assert (length (b_cum s) - 2 <= (Z.to_nat z - length arms * c_units cfg) / (2 * c_units cfg)) by (apply div_le_mult; [lia|]; nia).
        lia.
      + rewrite Ht. nia.
  Qed.
End P.
