(** C13-C18: TabularCPD. *)
From Coq Require Import List Arith ZArith Reals Bool Lia Lra Permutation.
From Flocq Require Import Core BinarySingleNaN.
From Verif Require Import PyBase PyLemmas Num NumLemmas NumOps FloatOps NumLaws TabModel TabSpec TabProofs TabProofs2 TabReal.
Import ListNotations.
Open Scope nat_scope.

(** ** C13: exact frequencies *)
Theorem C13_exact_frequencies : forall N (o : numops N) B ratio t xs zs t' x,
  exact_upto o B -> reach o ratio t -> tab_fit o t xs zs = (t', None) ->
  length xs <= B -> length (z_support t') <= B -> In x xs ->
  exists m, t_min t' = Some m
    /\ dget (t_xmarg t') x = Some (ndiv o (nnat o (n_x xs x)) (nnat o (length xs)))
    /\ ((forall z, In z (z_support t') -> violates o m (freq o xs zs x z) = false) ->
        forall z, In z (z_support t') -> answer o t' x z = [freq o xs zs x z]).
Proof.
  intros N o B ratio t xs zs t' x ex Hr Hf H1 H2 Hx.
  destruct (fit_inv o B ex _ _ _ _ _ Hr Hf H1) as (m & Hl & Hold & Hm & Hmin & _ & _ & Hd & Hz & Hin & _).
  exists m. split; [exact Hmin|]. split; [apply Hin, Hx|]. intros Hv z Hzi.
  rewrite answer_val, (proj1 (Hin x Hx)). destruct (in_dec key_eq z (t_zs t')) as [_|Hn]; [|contradiction].
  unfold smoothed. rewrite (Hv z Hzi).
  assert (Ht : final o m (freq o xs zs x) (t_zs t') = nint o 0).
  { unfold final. unfold z_support in Hv. clear -Hv. induction (t_zs t') as [|q l IH]; [reflexivity|].
    cbn [fold_left]. pose proof (Hv q (or_introl eq_refl)) as Hq. unfold violates in Hq. apply orb_false_iff in Hq as [-> ->].
    apply IH. intros; apply Hv; now right. }
  assert (Hk : keep o m (freq o xs zs x) (t_zs t') = t_zs t').
  { unfold keep. unfold z_support in Hv. clear -Hv. induction (t_zs t') as [|q l IH]; [reflexivity|].
    simpl. rewrite (Hv q (or_introl eq_refl)). simpl. f_equal. apply IH. intros; apply Hv; now right. }
  unfold share. rewrite Ht, Hk. unfold freq at 1 2. apply (f_equal (fun a => [a])).
  assert (Hb : n_xz xs zs x z <= n_x xs x).
  { unfold n_xz, n_x. rewrite <- (nrow_cell (combine xs zs)).
    pose proof (nrow_sum (combine xs zs) x) as Hns. rewrite combine_fst in Hns by exact Hl. rewrite <- Hns. clear. unfold ncell, nsum. generalize (nrow (combine xs zs) x). clear. intros r.
    destruct (dget r z) as [c|] eqn:E; [|lia]. apply dget_in in E.
    induction r as [|[a b] r IH]; [destruct E|]. simpl. destruct E as [E|E]; [injection E as -> ->; lia|]. specialize (IH E). lia. }
  apply (e_share o B ex).
  - exact Hb.
  - apply (count_occ_In key_eq), Hx.
  - pose proof (count_occ_bound key_eq x xs). unfold n_x. lia.
  - unfold z_support in Hzi. destruct (t_zs t'); [destruct Hzi|simpl; lia].
  - exact H2.
Qed.
Print Assumptions C13_exact_frequencies.
(** binary64, up to 2^53 units and values *)
Theorem C13_binary64 : forall lib ratio t xs zs t' x,
  reach (f64 lib) ratio t -> tab_fit (f64 lib) t xs zs = (t', None) ->
  (Z.of_nat (length xs) <= 2 ^ 53)%Z -> (Z.of_nat (length (z_support t')) <= 2 ^ 53)%Z -> In x xs ->
  exists m, t_min t' = Some m
    /\ dget (t_xmarg t') x = Some (fdiv (f_of_nat (n_x xs x)) (f_of_nat (length xs)))
    /\ ((forall z, In z (z_support t') -> violates (f64 lib) m (fdiv (f_of_nat (n_xz xs zs x z)) (f_of_nat (n_x xs x))) = false) ->
        forall z, In z (z_support t') -> answer (f64 lib) t' x z = [fdiv (f_of_nat (n_xz xs zs x z)) (f_of_nat (n_x xs x))]).
Proof.
  intros lib ratio t xs zs t' x Hr Hf H1 H2 Hx.
  assert (Hlz : length xs = length zs).
  { destruct (Nat.eq_dec (length xs) (length zs)) as [|Hn]; [assumption|].
    destruct (proj2 (proj2 (fit_fields _ _ _ _ _ _ Hf)) Hn). discriminate. }
  assert (Hnat : forall k, (Z.of_nat k <= 2 ^ 53)%Z -> nnat (f64 lib) k = f_of_nat k).
  { intros k Hk. unfold nnat, nint. cbn [nlit f64]. unfold f_of_nat.
    destruct (flit1 (Z.of_nat k)) as [A1 A2]; [lia|]. destruct (of_Z_exact (Z.of_nat k)) as [C1 C2]; [lia|].
    destruct (Nat.eq_dec k 0) as [->|Hk0]; [apply B2SF_inj; vm_compute; reflexivity|].
    apply sign_eq; [assumption|assumption|congruence|]. rewrite A2. apply not_0_IZR. lia. }
  assert (Hn1 : n_x xs x <= length xs) by apply count_occ_bound.
  assert (Hn2 : forall z, n_xz xs zs x z <= length xs).
  { intros z. unfold n_xz. eapply Nat.le_trans; [apply count_occ_bound|]. rewrite combine_length. lia. }
  destruct (C13_exact_frequencies F (f64 lib) (Nat.max (length xs) (length (z_support t'))) ratio t xs zs t' x) as (m & M1 & M2 & M3); auto; try lia.
  { apply f64_exact. lia. }
  exists m. split; [exact M1|]. split; [rewrite M2; cbn [ndiv f64]; rewrite !Hnat by lia; reflexivity|].
  assert (Hq : forall z, freq (f64 lib) xs zs x z = fdiv (f_of_nat (n_xz xs zs x z)) (f_of_nat (n_x xs x))).
  { intros z. unfold freq. cbn [ndiv f64]. specialize (Hn2 z). rewrite !Hnat by lia. reflexivity. }
  intros Hv z Hz. rewrite M3, Hq; auto. intros q Hqi. rewrite Hq. auto.
Qed.
Print Assumptions C13_binary64.
(** five units, two x values, ratio 20 (floor 1/40): the row of [0] has frequencies 1/3, 2/3, the
    row of [1] has 1/2, 1/2; nothing is smoothed *)
Definition five_xs : list key := [[0]; [1]; [0]; [0]; [1]].
Definition five_zs : list key := [[3]; [3]; [4]; [4]; [4]].
Definition any_lib : libm := mkLibm (fun x => x) (fun x => x) (fun _ => f0).
Definition five : tab F := fst (tab_fit (f64 any_lib) (tab_default (f64 any_lib)) five_xs five_zs).
Example C13_case :
  snd (tab_fit (f64 any_lib) (tab_default (f64 any_lib)) five_xs five_zs) = None
  /\ reach (f64 any_lib) (nint (f64 any_lib) 20) (tab_default (f64 any_lib))
  /\ z_support five = [[3]; [4]]
  /\ map B2SF (answer (f64 any_lib) five [0] [3]) = [B2SF (fdiv (f_of_nat 1) (f_of_nat 3))]
  /\ option_map B2SF (dget (t_xmarg five) [0]) = Some (B2SF (fdiv (f_of_nat 3) (f_of_nat 5)))
  /\ forallb (fun x => forallb (fun z => negb (violates (f64 any_lib) (flit 1 40) (freq (f64 any_lib) five_xs five_zs x z))) [[3]; [4]]) [[0]; [1]] = true.
Proof. split; [vm_compute; reflexivity|]. split; [constructor|]. repeat split; vm_compute; reflexivity. Qed.

(** ** C14: row sums *)
Theorem C14_row_sums : forall r t xs zs t' x,
  (1 <= r)%R -> reach xreal (Fin r) t -> tab_fit xreal t xs zs = (t', None) -> In x xs ->
  let s := length (z_support t') in
  let m := (1 / (INR s * r))%R in
  exists l, snd (tab_predict xreal t' (repeat x s) (z_support t')) = map Fin l
    /\ t_min t' = Some (Fin m)
    /\ (2 <= s -> (forall z, In z (z_support t') -> rfreq xs zs x z <= 1 - m)%R -> rsum l = 1%R)
    /\ (2 <= s -> (exists z, In z (z_support t') /\ (1 - m < rfreq xs zs x z)%R) -> rsum l = (1 + (INR s - 2) * m)%R)
    /\ (s = 1 -> rsum l = (1 - m)%R).
Proof.
  intros r t xs zs t' x Hr Hre Hf Hx s m.
  destruct (fit_x _ _ _ _ _ Hr Hre Hf) as (m' & Hmin & Hm & Hpos & Hle & Hl & Hd & Hz & _ & _ & Hin & _).
  fold s in Hm, Hle. change (length (t_zs t')) with s in Hm, Hle. fold m in Hm. subst m'.
  exists (map (rsm m (rfreq xs zs x) (t_zs t')) (t_zs t')).
  assert (Hp : forall z, (0 <= rfreq xs zs x z)%R) by (intros; now apply rfreq_nonneg).
  assert (Hs : rsum (map (rfreq xs zs x) (t_zs t')) = 1%R) by (apply rfreq_sum; assumption).
  split; [|split; [exact Hmin|split; [|split]]].
  - unfold s, z_support. rewrite predict_repeat, map_map. apply map_ext_in. intros z Hzi.
    rewrite (proj1 (Hin x Hx)). destruct (in_dec key_eq z (t_zs t')); [reflexivity|contradiction].
  - intros _ Hh. apply row_no_high; auto.
  - intros H2 (z & Hzi & Hh). apply (row_high _ _ _ Hp Hs Hpos Hle z); auto.
  - intros H1. apply row_single; auto.
Qed.
Print Assumptions C14_row_sums.
(** the table of C15_negative_exact below meets the hypotheses with s = 5; here three values and
    ratio 1: one cell exceeds 1 - 1/3, the row sums to 1 + 1/3 *)
Example C14_case : exists t', tab_fit xreal (tab_new (Fin 1)) [[0]; [0]; [0]; [0]; [1]; [1]] [[3]; [3]; [3]; [3]; [4]; [5]] = (t', None)
  /\ z_support t' = [[3]; [4]; [5]]
  /\ exists l, snd (tab_predict xreal t' (repeat [0] 3) (z_support t')) = map Fin l /\ rsum l = (4 / 3)%R.
Proof.
  set (xs := [[0]; [0]; [0]; [0]; [1]; [1]]). set (zs := [[3]; [3]; [3]; [3]; [4]; [5]] : list key).
  destruct (fit_returns 1 (tab_new (Fin 1)) xs zs) as [t' Ht]; [lra|constructor|reflexivity|discriminate|intros ? []|].
  exists t'. split; [exact Ht|].
  destruct (fit_x 1 _ _ _ _ ltac:(lra) (r_new xreal (Fin 1)) Ht) as (m & _ & _ & _ & _ & _ & _ & _ & Hz & _).
  cbn [t_zs tab_new] in Hz. assert (Hz' : z_support t' = [[3]; [4]; [5]]) by (unfold z_support; rewrite Hz; reflexivity).
  split; [exact Hz'|].
  destruct (C14_row_sums 1 _ xs zs t' [0] ltac:(lra) (r_new xreal (Fin 1)) Ht (or_introl eq_refl)) as (l & H1 & _ & _ & H2 & _).
  rewrite Hz' in *. exists l. split; [exact H1|]. simpl length in H2. rewrite H2; [simpl; lra|lia|].
  exists [3]. split; [now left|]. unfold rfreq. change (n_xz xs zs [0] [3]) with 4. change (n_x xs [0]) with 4. simpl. lra.
Qed.

(** ** C15: the floor *)
Theorem C15_floor : forall N (o : numops N) B ratio t xs zs t' x,
  exact_upto o B -> reach o ratio t -> tab_fit o t xs zs = (t', None) -> length xs <= B -> In x xs ->
  exists m d, t_min t' = Some m /\ forall z, In z (z_support t') ->
    let v := freq o xs zs x z in
    answer o t' x z = [if too_low o m v then m
                       else if too_high o m v then nsub o (nint o 1) m
                       else nsub o v d].
Proof.
  intros N o B ratio t xs zs t' x ex Hr Hf H1 Hx.
  destruct (fit_inv o B ex _ _ _ _ _ Hr Hf H1) as (m & Hl & Hold & Hm & Hmin & _ & _ & Hd & Hz & Hin & _).
  exists m, (share o m (freq o xs zs x) (t_zs t')). split; [exact Hmin|]. intros z Hzi. cbv zeta.
  rewrite answer_val, (proj1 (Hin x Hx)). destruct (in_dec key_eq z (t_zs t')) as [_|Hn]; [|contradiction].
  unfold smoothed, clip, violates. destruct (too_low o m _); [reflexivity|]. destruct (too_high o m _); reflexivity.
Qed.
Print Assumptions C15_floor.
(** in exact arithmetic the common amount is the total violation divided by the number of
    cells within the band *)
Theorem C15_common_amount : forall r t xs zs t' x,
  (r <> 0)%R -> reach xreal (Fin r) t -> tab_fit xreal t xs zs = (t', None) -> In x xs ->
  exists m d, t_min t' = Some (Fin m)
    /\ (forall z, In z (z_support t') ->
        let v := rfreq xs zs x z in
        answer xreal t' x z = [Fin (if Rlt_dec v m then m else if Rlt_dec (1 - m) v then 1 - m else v - d)])%R
    /\ d = (rsum (map (fun z => viol m (rfreq xs zs x z)) (z_support t'))
            / INR (length (filter (fun z => rkeep m (rfreq xs zs x z)) (z_support t'))))%R
    /\ ((exists z, In z (z_support t') /\ rkeep m (rfreq xs zs x z) = true) -> 0 <= d)%R.
Proof.
  intros r t xs zs t' x Hr Hre Hf Hx.
  destruct (fit_xg _ _ _ _ _ Hre Hf) as (m & Hmin & _ & _ & _ & _ & _ & _ & Hin & _).
  exists m, (rshare m (rfreq xs zs x) (t_zs t')). split; [exact Hmin|]. split; [|split; [reflexivity|]].
  - intros z Hzi. cbv zeta. rewrite answer_val, (proj1 (Hin x Hx)).
    destruct (in_dec key_eq z (t_zs t')); [reflexivity|contradiction].
  - intros (z & Hzi & Hk). unfold rshare, Rdiv. apply Rmult_le_pos.
    + apply rsum_nonneg. intros a Ha. apply in_map_iff in Ha as (q & <- & _). unfold viol.
      destruct (Rlt_dec _ _); [lra|]. destruct (Rlt_dec _ _); lra.
    + left. apply Rinv_0_lt_compat, INR_pos.
      assert (Hi : In z (filter (fun z => rkeep m (rfreq xs zs x z)) (t_zs t'))) by (apply filter_In; auto).
      destruct (filter _ _); [destruct Hi|simpl; lia].
Qed.
Print Assumptions C15_common_amount.
(** 103 units, default ratio, binary64: P([3]|[0]) is negative, and below min_prob *)
Definition neg_xs : list key := repeat [0] 100 ++ [[1]; [1]; [1]].
Definition neg_zs : list key := [3] :: repeat [4] 99 ++ [[0]; [1]; [2]].
Theorem C15_negative_probability : forall lib,
  let t := fst (tab_fit (f64 lib) (tab_default (f64 lib)) neg_xs neg_zs) in
  snd (tab_fit (f64 lib) (tab_default (f64 lib)) neg_xs neg_zs) = None
  /\ exists p, answer (f64 lib) t [0] [3] = [p] /\ fltb p f0 = true.
Proof.
  intros lib t. split; [vm_compute; reflexivity|].
  exists (val (f64 lib) t [0] [3]). split; [reflexivity|]. vm_compute. reflexivity.
Qed.
Print Assumptions C15_negative_probability.
Theorem C15_negative_exact : exists (xs zs : list key) t', tab_fit xreal (tab_new (Fin 1)) xs zs = (t', None)
  /\ In [0] xs /\ answer xreal t' [0] [3] = [Fin (- (1 / 10))].
Proof.
  set (xs := [[0]; [0]; [0]; [0]; [0]; [1]; [1]; [1]]). set (zs := [[3]; [4]; [4]; [4]; [4]; [0]; [1]; [2]] : list key).
  destruct (fit_returns 1 (tab_new (Fin 1)) xs zs) as [t' Ht]; [lra|constructor|reflexivity|discriminate|intros ? []|].
  exists xs, zs, t'. split; [exact Ht|]. split; [now left|].
  destruct (fit_x 1 _ _ _ _ ltac:(lra) (r_new xreal (Fin 1)) Ht) as (m & _ & Hm & _ & _ & _ & _ & _ & Hz & _ & Hin & _).
  destruct (Hin [0] (or_introl eq_refl)) as [Hc _]. rewrite answer_val, Hc. clear Hc Hin Ht.
  cbn [t_zs tab_new] in Hz. assert (Hz' : t_zs t' = [[3]; [4]; [0]; [1]; [2]]) by (rewrite Hz; reflexivity). clear Hz.
  rewrite Hz' in *. assert (Hm5 : (m = 1 / 5)%R) by (rewrite Hm; simpl; lra). clear Hm. subst m.
  destruct (in_dec key_eq [3] _) as [_|Hn]; [|destruct Hn; now left]. do 2 f_equal.
  unfold rsm, rshare, viol, rkeep, rfreq.
  change (n_x xs [0]) with 5. change (n_xz xs zs [0] [3]) with 1. cbn [map rsum filter].
  change (n_xz xs zs [0] [3]) with 1. change (n_xz xs zs [0] [4]) with 4. change (n_xz xs zs [0] [0]) with 0.
  change (n_xz xs zs [0] [1]) with 0. change (n_xz xs zs [0] [2]) with 0.
  replace (INR 5) with 5%R by (simpl; lra). replace (INR 4) with 4%R by (simpl; lra). simpl (INR 1). simpl (INR 0).
  repeat (destruct (Rlt_dec _ _); try lra). simpl length. simpl INR. lra.
Qed.
Print Assumptions C15_negative_exact.
Example C15_case : reach xreal (Fin 1) (tab_new (Fin 1)) /\ (1 <> 0)%R /\ In [0] neg_xs
  /\ length neg_xs = length neg_zs /\ length neg_xs = 103.
Proof. repeat split; [constructor|lra|now left]. Qed.

(** ** C16: predict *)
Theorem C16_predict : forall N (o : numops N) t xs zs,
  length (snd (tab_predict o t xs zs)) = Nat.min (length xs) (length zs)
  /\ (forall i x z, nth_error xs i = Some x -> nth_error zs i = Some z ->
        nth_error (snd (tab_predict o t xs zs)) i = nth_error (answer o t x z) 0).
Proof.
  intros N o t xs zs. rewrite (proj1 (predict_vals o xs zs t)). split; [now rewrite map_length, combine_length|].
  revert zs. induction xs as [|a xs IH]; intros [|b zs] [|i] x z Hx Hz; try discriminate; cbn [combine map nth_error] in *.
  - injection Hx as ->. injection Hz as ->. reflexivity.
  - apply IH; assumption.
Qed.
Print Assumptions C16_predict.
Theorem C16_pure : forall N (o : numops N) qs t xs zs,
  snd (tab_predict o (predictions o qs t) xs zs) = snd (tab_predict o t xs zs)
  /\ x_support (predictions o qs t) = x_support t /\ z_support (predictions o qs t) = z_support t
  /\ t_xmarg (predictions o qs t) = t_xmarg t /\ t_min (predictions o qs t) = t_min t.
Proof.
  intros N o qs. unfold predictions. induction qs as [|[a b] qs IH]; intros t xs zs; [auto 6|].
  cbn [fold_left fst snd]. destruct (IH (fst (tab_predict o t a b)) xs zs) as (H1 & H2 & H3 & H4 & H5).
  destruct (predict_fields o a b t _ eq_refl) as (F1 & F2 & F3 & F4 & F5 & F6).
  rewrite H1, H4, H5. unfold x_support, z_support in *. rewrite H2, H3, F1, F2, F4, F6.
  repeat split; auto. rewrite !(proj1 (predict_vals o xs zs _)). apply map_ext. intros q. apply (proj2 (predict_vals o a b t)).
Qed.
Print Assumptions C16_pure.
Theorem C16_unseen_is_zero : forall N (o : numops N) B ratio t xs zs t' x z,
  exact_upto o B -> reach o ratio t -> tab_fit o t xs zs = (t', None) -> length xs <= B ->
  ~ In x (x_support t') \/ ~ In z (z_support t') -> answer o t' x z = [nint o 0].
Proof.
  intros N o B ratio t xs zs t' x z ex Hr Hf H1 H.
  destruct (fit_inv o B ex _ _ _ _ _ Hr Hf H1) as (m & Hl & Hold & Hm & Hmin & Hxs & Hzs & Hd & Hz & Hin & Hout).
  rewrite answer_val. destruct (in_dec key_eq x xs) as [Hx|Hx].
  - destruct H as [H|H]; [destruct H; unfold x_support; rewrite Hxs; apply remember_all_in; now left|].
    rewrite (proj1 (Hin x Hx)). destruct (in_dec key_eq z (t_zs t')); [contradiction|reflexivity].
  - rewrite (proj1 (Hout x Hx)). reflexivity.
Qed.
Print Assumptions C16_unseen_is_zero.
(** after a fit printing works; it keeps working while only seen values are queried; one query
    of an unseen value breaks it for good *)
Theorem C16_printing : forall N (o : numops N) t xs zs t' e qs,
  length xs = length zs -> tab_fit o t xs zs = (t', e) ->
  ((forall q x z, In q qs -> In (x, z) (combine (fst q) (snd q)) -> In x (x_support t') /\ In z (z_support t')) ->
     exists l, tab_str (predictions o qs t') = Ok l)
  /\ ((exists q x z, In q qs /\ In (x, z) (combine (fst q) (snd q)) /\ (~ In x (x_support t') \/ ~ In z (z_support t'))) ->
     tab_str (predictions o qs t') = Err KeyError).
Proof.
  intros N o t xs zs t' e qs Hl Hf. pose proof (fit_wf o t xs zs t' e Hl Hf) as Hw. clear Hf. unfold x_support, z_support. split.
  - intros Hq. apply str_wf. unfold predictions. revert t' Hw Hq. induction qs as [|q qs IH]; intros t' Hw Hq; [exact Hw|].
    cbn [fold_left]. destruct (predict_fields o (fst q) (snd q) t' _ eq_refl) as (F1 & F2 & _).
    apply IH.
    + apply predict_wf; [exact Hw|]. intros [x z] Hi. apply (Hq q x z (or_introl eq_refl) Hi).
    + rewrite F1, F2. intros q' x z Hi. apply (Hq q' x z). now right.
  - intros (q & x & z & Hi & Hxz & Hn).
    assert (G : forall qs t', has' t' x z \/ (exists q, In q qs /\ In (x, z) (combine (fst q) (snd q))) ->
      has' (predictions o qs t') x z /\ t_xs (predictions o qs t') = t_xs t' /\ t_zs (predictions o qs t') = t_zs t').
    { clear. unfold predictions. induction qs as [|q qs IH]; intros t' H.
      - destruct H as [H|(q & [] & _)]. auto.
      - cbn [fold_left]. destruct (predict_fields o (fst q) (snd q) t' _ eq_refl) as (F1 & F2 & _). rewrite <- F1, <- F2.
        apply IH. destruct H as [H|(q' & [->|H] & H')].
        + left. apply predict_has. now right.
        + left. apply predict_has. now left.
        + right. eauto. }
    destruct (G qs t') as (Hh & E1 & E2); [right; eauto|]. destruct (has'_has _ _ _ Hh) as (row & R1 & R2).
    apply (str_not_wf _ x row R1). rewrite E1, E2. destruct Hn as [Hn|Hn]; [now left|right; eauto].
Qed.
Print Assumptions C16_printing.
(** the fitted table prints; after asking for an unseen z it answers 0 and no longer prints *)
Example C16_case :
  option_map (@length _) (match tab_str five with Ok l => Some l | Err _ => None end) = Some 2
  /\ map B2SF (answer (f64 any_lib) five [0] [9]) = [B2SF f0]
  /\ tab_str (predictions (f64 any_lib) [([[0]], [[4]]); ([[0]; [1]], [[9]])] five) = Err KeyError
  /\ map B2SF (snd (tab_predict (f64 any_lib) five [[1]; [0]; [0]] [[3]; [9]])) = map B2SF [flit 1 2; f0].
Proof. repeat split; vm_compute; reflexivity. Qed.

(** ** C17: refitting *)
Theorem C17_support_accumulates : forall N (o : numops N) t xs zs t' e,
  length xs = length zs -> tab_fit o t xs zs = (t', e) ->
  (forall x, In x (x_support t') <-> In x (x_support t) \/ In x xs)
  /\ (forall z, In z (z_support t') <-> In z (z_support t) \/ In z zs).
Proof.
  intros N o t xs zs t' e Hl Hf. destruct (proj1 (proj2 (fit_fields o _ _ _ _ _ Hf)) Hl) as [E1 E2].
  unfold x_support, z_support. rewrite E1, E2. split; intros k; rewrite remember_all_in; tauto.
Qed.
Print Assumptions C17_support_accumulates.
Theorem C17_missing_x_raises : forall N (o : numops N) B t xs zs x,
  exact_upto o B -> length xs = length zs -> length xs <= B -> In x (x_support t) -> ~ In x xs ->
  exists t', tab_fit o t xs zs = (t', Some ZeroDivisionError).
Proof. intros N o B t xs zs x ex Hl HB Hx Hn. apply (fit_missing o B ex t xs zs x Hl HB Hx Hn). Qed.
Print Assumptions C17_missing_x_raises.
(** a z value of an earlier fit still gets the floor probability, and the floor counts it *)
Theorem C17_old_z_keeps_probability : forall r t xs zs t' x z,
  (1 <= r)%R -> reach xreal (Fin r) t -> tab_fit xreal t xs zs = (t', None) -> In x xs ->
  In z (z_support t) -> ~ In z zs ->
  answer xreal t' x z = [Fin (1 / (INR (length (z_support t')) * r))]%R
  /\ (0 < 1 / (INR (length (z_support t')) * r))%R
  /\ length (z_support t) <= length (z_support t').
Proof.
  intros r t xs zs t' x z Hr Hre Hf Hx Hz Hn.
  destruct (fit_x _ _ _ _ _ Hr Hre Hf) as (m & Hmin & Hm & Hpos & Hle & Hl & Hd & Hzin & Hzs & _ & Hin & _).
  assert (Hi : In z (t_zs t')) by (rewrite Hzs; apply remember_all_in; now right).
  split; [|split].
  - rewrite answer_val, (proj1 (Hin x Hx)). destruct (in_dec key_eq z (t_zs t')); [|contradiction].
    unfold z_support. rewrite <- Hm. do 2 f_equal. unfold rsm.
    assert (E : rfreq xs zs x z = 0%R).
    { unfold rfreq, n_xz. rewrite (proj1 (count_occ_not_In pair_eq _ _)).
      - simpl. unfold Rdiv. apply Rmult_0_l.
      - intros Hi'. apply Hn. eapply in_combine_r, Hi'. }
    rewrite E. destruct (Rlt_dec 0 m); [reflexivity|contradiction].
  - unfold z_support. rewrite <- Hm. exact Hpos.
  - unfold z_support. destruct (reach_nodup _ _ _ Hre) as (_ & D2 & _). apply NoDup_incl_length; [exact D2|].
    intros q Hq. rewrite Hzs. apply remember_all_in. now right.
Qed.
Print Assumptions C17_old_z_keeps_probability.
(** same supports: the refit returns when the fresh fit does, and predicts the same *)
Theorem C17_same_support : forall r t xs zs,
  reach xreal (Fin r) t ->
  (forall x, In x (x_support t) -> In x xs) -> (forall z, In z (z_support t) -> In z zs) ->
  forall t0, tab_fit xreal (tab_new (Fin r)) xs zs = (t0, None) ->
  exists t', tab_fit xreal t xs zs = (t', None)
    /\ (forall x z, answer xreal t' x z = answer xreal t0 x z)
    /\ (forall x, dget (t_xmarg t') x = dget (t_xmarg t0) x)
    /\ t_min t' = t_min t0.
Proof.
  intros r t xs zs Hre Hx Hz t0 Hf0.
  destruct (fit_xg _ _ _ _ _ (r_new xreal (Fin r)) Hf0) as (m0 & Hmin0 & Hm0 & Hl & Hd0 & Hz0 & Hzs0 & _ & Hin0 & Hout0).
  cbn [t_zs tab_new] in Hzs0.
  assert (Hp : Permutation (fold_left remember zs (t_zs t)) (t_zs t0)).
  { apply NoDup_Permutation; [apply remember_all_nodup; apply (reach_nodup _ _ _ Hre)|exact Hd0|].
    intros q. rewrite Hzs0, !remember_all_in. cbn [In]. split; [intros [?|?]; auto|intros [?|[]]; auto]. }
  destruct (reach_nodup _ _ _ Hre) as (D1 & D2 & D3).
  destruct (fit_ok xreal _ (xreal_exact (length xs)) t xs zs (Fin m0) Hl (le_n _) D1 D2 Hx) as (t' & E & _).
  { rewrite D3, (Permutation_length Hp). exact Hm0. }
  exists t'. split; [exact E|].
  destruct (fit_xg _ _ _ _ _ Hre E) as (m & Hmin & Hm & _ & Hd & Hzz & Hzs & _ & Hin & Hout).
  rewrite <- Hzs in Hp. rewrite (Permutation_length Hp), Hm0 in Hm. injection Hm as <-.
  split; [|split; [|congruence]].
  - intros x z. rewrite !answer_val. f_equal. destruct (in_dec key_eq x xs) as [Hi|Hi].
    + rewrite (proj1 (Hin x Hi)), (proj1 (Hin0 x Hi)).
      destruct (in_dec key_eq z (t_zs t')) as [Ha|Ha], (in_dec key_eq z (t_zs t0)) as [Hb|Hb]; try reflexivity.
      * f_equal. apply rsm_perm, Hp.
      * destruct Hb. eapply Permutation_in; eassumption.
      * destruct Ha. eapply Permutation_in; [symmetry|]; eassumption.
    + rewrite (proj1 (Hout x Hi)), (proj1 (Hout0 x Hi)). reflexivity.
  - intros x. destruct (in_dec key_eq x xs) as [Hi|Hi].
    + rewrite (proj2 (Hin x Hi)), (proj2 (Hin0 x Hi)). reflexivity.
    + rewrite (proj2 (Hout x Hi)), (proj2 (Hout0 x Hi)). reflexivity.
Qed.
Print Assumptions C17_same_support.
(** in any arithmetic, binary64 included, when the values also appear in the remembered order *)
Theorem C17_same_support_order : forall N (o : numops N) B ratio t xs zs t0 t',
  exact_upto o B -> length xs <= B -> reach o ratio t ->
  tab_fit o (tab_new ratio) xs zs = (t0, None) -> tab_fit o t xs zs = (t', None) ->
  z_support t' = z_support t0 -> forall x z, answer o t' x z = answer o t0 x z.
Proof.
  intros N o B ratio t xs zs t0 t' ex HB Hre Hf0 Hf Hs x z. unfold z_support in Hs.
  destruct (fit_inv o B ex _ _ _ _ _ (r_new o ratio) Hf0 HB) as (m0 & _ & _ & Hm0 & _ & _ & _ & _ & _ & Hin0 & Hout0).
  destruct (fit_inv o B ex _ _ _ _ _ Hre Hf HB) as (m & _ & _ & Hm & _ & _ & _ & _ & _ & Hin & Hout).
  rewrite Hs, Hm0 in Hm. injection Hm as <-. rewrite !answer_val. f_equal.
  destruct (in_dec key_eq x xs) as [Hi|Hi].
  - rewrite (proj1 (Hin x Hi)), (proj1 (Hin0 x Hi)), Hs. reflexivity.
  - rewrite (proj1 (Hout x Hi)), (proj1 (Hout0 x Hi)). reflexivity.
Qed.
Print Assumptions C17_same_support_order.
(** refit of the fitted table without x = [1] raises; without z = [3] the old value stays *)
Example C17_case :
  snd (tab_fit (f64 any_lib) five [[0]; [0]] [[3]; [4]]) = Some ZeroDivisionError
  /\ snd (tab_fit (f64 any_lib) five [[0]; [1]] [[4]; [4]]) = None
  /\ z_support (fst (tab_fit (f64 any_lib) five [[0]; [1]] [[4]; [4]])) = [[3]; [4]]
  /\ map B2SF (answer (f64 any_lib) (fst (tab_fit (f64 any_lib) five [[0]; [1]] [[4]; [4]])) [1] [3]) = [B2SF (flit 1 40)]
  /\ reach (f64 any_lib) (nint (f64 any_lib) 20) five
  /\ z_support (fst (tab_fit (f64 any_lib) five (rev five_xs) (rev five_zs))) = z_support five.
Proof.
  split; [vm_compute; reflexivity|]. split; [vm_compute; reflexivity|]. split; [vm_compute; reflexivity|].
  split; [vm_compute; reflexivity|]. split; [|vm_compute; reflexivity].
  apply (r_fit _ _ _ five_xs five_zs). constructor.
Qed.

(** ** C18: the order of the units *)
Theorem C18_order_irrelevant : forall r xs zs xs' zs' t,
  length xs = length zs -> length xs' = length zs' -> Permutation (combine xs zs) (combine xs' zs') ->
  tab_fit xreal (tab_new (Fin r)) xs zs = (t, None) ->
  exists t', tab_fit xreal (tab_new (Fin r)) xs' zs' = (t', None)
    /\ (forall x z, answer xreal t' x z = answer xreal t x z)
    /\ (forall x, dget (t_xmarg t') x = dget (t_xmarg t) x).
Proof.
  intros r xs zs xs' zs' t Hl Hl' Hp Hf.
  destruct (fit_xg _ _ _ _ _ (r_new xreal (Fin r)) Hf) as (m & Hmin & Hm & _ & Hd & _ & Hzs & _ & Hin & Hout).
  cbn [t_zs tab_new] in Hzs.
  assert (Hpx : Permutation xs xs').
  { rewrite <- (combine_fst xs zs Hl), <- (combine_fst xs' zs' Hl'). now apply Permutation_map. }
  assert (Hsnd : forall a b : list key, length a = length b -> map snd (combine a b) = b).
  { induction a as [|q a IH]; intros [|q' b] H; try discriminate; [reflexivity|]. simpl. f_equal. apply IH. simpl in H. lia. }
  assert (Hpz : Permutation zs zs').
  { rewrite <- (Hsnd xs zs Hl), <- (Hsnd xs' zs' Hl'). now apply Permutation_map. }
  assert (Hzz : Permutation (fold_left remember zs' []) (t_zs t)).
  { rewrite Hzs. apply remember_perm. intros z. split; apply Permutation_in; [symmetry; exact Hpz|exact Hpz]. }
  destruct (fit_ok xreal _ (xreal_exact (length xs')) (tab_new (Fin r)) xs' zs' (Fin m) Hl' (le_n _)) as (t' & E & _).
  { constructor. } { constructor. } { intros x []. }
  { cbn [t_zs t_ratio tab_new]. rewrite (Permutation_length Hzz). exact Hm. }
  exists t'. split; [exact E|].
  destruct (fit_xg _ _ _ _ _ (r_new xreal (Fin r)) E) as (m' & Hmin' & Hm' & _ & Hd' & _ & Hzs' & _ & Hin' & Hout').
  cbn [t_zs tab_new] in Hzs'. rewrite <- Hzs' in Hzz. rewrite (Permutation_length Hzz), Hm in Hm'. injection Hm' as <-.
  assert (Hxi : forall x, In x xs <-> In x xs') by (intros; split; apply Permutation_in; [exact Hpx|symmetry; exact Hpx]).
  assert (Hnx : forall x, n_x xs' x = n_x xs x).
  { intros x. symmetry. apply (Permutation_count_occ key_eq), Hpx. }
  assert (Hnxz : forall x z, n_xz xs' zs' x z = n_xz xs zs x z).
  { intros x z. symmetry. apply (Permutation_count_occ pair_eq), Hp. }
  split.
  - intros x z. rewrite !answer_val. f_equal. destruct (in_dec key_eq x xs) as [Hi|Hi].
    + rewrite (proj1 (Hin' x (proj1 (Hxi x) Hi))), (proj1 (Hin x Hi)).
      destruct (in_dec key_eq z (t_zs t')) as [Ha|Ha], (in_dec key_eq z (t_zs t)) as [Hb|Hb]; try reflexivity.
      * f_equal. rewrite (rsm_perm _ _ _ _ _ Hzz). apply rsm_ext. intros q. unfold rfreq. now rewrite Hnx, Hnxz.
      * destruct Hb. eapply Permutation_in; eassumption.
      * destruct Ha. eapply Permutation_in; [symmetry|]; eassumption.
    + rewrite (proj1 (Hout x Hi)), (proj1 (Hout' x (fun H => Hi (proj2 (Hxi x) H)))). reflexivity.
  - intros x. destruct (in_dec key_eq x xs) as [Hi|Hi].
    + rewrite (proj2 (Hin x Hi)), (proj2 (Hin' x (proj1 (Hxi x) Hi))), Hnx, (Permutation_length Hpx). reflexivity.
    + rewrite (proj2 (Hout x Hi)), (proj2 (Hout' x (fun H => Hi (proj2 (Hxi x) H)))). reflexivity.
Qed.
Print Assumptions C18_order_irrelevant.
Example C18_case : Permutation (combine five_xs five_zs) (combine (rev five_xs) (rev five_zs))
  /\ exists t, tab_fit xreal (tab_new (Fin 20)) five_xs five_zs = (t, None).
Proof.
  split; [change (combine (rev five_xs) (rev five_zs)) with (rev (combine five_xs five_zs)); apply Permutation_rev|].
  apply (fit_returns 20); [lra|constructor|reflexivity|discriminate|intros x []].
Qed.
(** in binary64 the marginals and the unsmoothed rows do not depend on the order (C13), but a
    smoothed cell may: the violations are added in the order of first appearance *)
Definition ord_zs : list key := [[0]; [1]; [2]; [2]; [3]; [3]] ++ repeat [4] 6.
Theorem C18_binary64_order_matters : forall lib,
  let fit zs := tab_fit (f64 lib) (tab_new (f_of_Z 1)) (repeat [0] 12) zs in
  snd (fit ord_zs) = None /\ snd (fit (rev ord_zs)) = None
  /\ Permutation (combine (repeat [0] 12) ord_zs) (combine (repeat [0] 12) (rev ord_zs))
  /\ answer (f64 lib) (fst (fit ord_zs)) [0] [4] <> answer (f64 lib) (fst (fit (rev ord_zs))) [0] [4].
Proof.
  intros lib fit. split; [vm_compute; reflexivity|]. split; [vm_compute; reflexivity|]. split.
  - change (combine (repeat [0] 12) (rev ord_zs)) with (rev (combine (repeat [0] 12) ord_zs)). apply Permutation_rev.
  - rewrite !answer_val.
    assert (G : feqb (val (f64 lib) (fst (fit ord_zs)) [0] [4]) (val (f64 lib) (fst (fit (rev ord_zs))) [0] [4]) = false)
      by (vm_compute; reflexivity).
    assert (G' : feqb (val (f64 lib) (fst (fit ord_zs)) [0] [4]) (val (f64 lib) (fst (fit ord_zs)) [0] [4]) = true)
      by (vm_compute; reflexivity).
    revert G G'. generalize (val (f64 lib) (fst (fit ord_zs)) [0] [4]) (val (f64 lib) (fst (fit (rev ord_zs))) [0] [4]).
    intros a b G G' E. injection E as ->. congruence.
Qed.
Print Assumptions C18_binary64_order_matters.
