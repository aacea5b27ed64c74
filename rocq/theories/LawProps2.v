(** Property C120: what the arms of the paper's experiments can learn from the columns they get. *)
From Coq Require Import List Arith ZArith Bool String Reals Lra Lia.
From Verif Require Import PyBase Num NumOps DataModel ScmModel ScmProofs BanditModel ArmModel ParamModel PaperModel PaperSpec PaperProofs
  PaperProofs2 PaperProofs3 PaperProps ScmSpec LawSpec LawProofs LawProofs2 LawProofs3 LawProofs4 LawProofs5 LawProofs6 LawExample LawProps.
Import ListNotations.
Open Scope nat_scope.
Open Scope list_scope.

(** an arm whose columns contain all of V_i or all of Z_i for every path estimates the effect of the
    treatment, though not from the variables it is named after *)
Theorem C120_arm_identifies : forall (N W : Type) (o : numops N) (seeds : law W) big zd vd zc vc z0c m
    (cpds : sdict (cpd N (list W))) limit units latex alg g0 e g1 n k (eqb : arr N -> arr N -> bool)
    (K : string -> list (arr N) -> law (arr N)) (Y : option (arr N) -> R) a f s' j arm,
  is_law seeds -> decides eqb -> 2 * m + 3 <= k ->
  generate_example o big zd vd zc vc z0c m cpds limit units latex alg g0 = (Ok e, g1) ->
  (forall v f, paper_var m v -> entry cpds v f -> draws seeds n f (K v)) ->
  (forall args g, f n args g = (Ok a, g)) -> replaces (e_scm e) "X" f s' ->
  dims_fit zd vd m -> regular (tapes seeds k) (e_scm e) n m zd vd ->
  j < 2 ^ m -> nth_error (e_arms e) (S j) = Some arm ->
  covers zd vd m (mask_list (pa_mask arm)) ->
  let treated := fun g => same eqb (Some a) (drawn (e_scm e) n g "X") in
  let agree := fun g g' => same eqb (seen (e_scm e) n (pa_mask arm) g) (seen (e_scm e) n (pa_mask arm) g') in
  overlap (tapes seeds k) treated agree ->
  adjusted (tapes seeds k) treated agree (fun g => Y (drawn (e_scm e) n g "Y")) =
  mean (tapes seeds k) (fun g => Y (drawn s' n g "Y")).
Proof.
  intros N W o seeds big zd vd zc vc z0c m cpds limit units latex alg g0 e g1 n k eqb K Y a f s' j arm
    Hlaw Heq Hk He Hd Hf Hs' Hfit Hreg Hj Harm Hb.
  apply generate_example_spec in He as (s & d0 & x & t & y & Es & Hz & Hv & _ & _ & _ & _ & ->). cbn [e_scm e_arms] in *.
  unfold paper_arms in Harm. cbn [nth_error] in Harm. rewrite nth_error_map in Harm.
  rewrite (nth_error_nth' (seq 0 (2 ^ m)) 0) in Harm by now rewrite seq_length.
  rewrite seq_nth in Harm by exact Hj. cbn [option_map Nat.add] in Harm. injection Harm as <-. cbn [pa_mask backdoor_arm] in *.
  rewrite arm_mask_list in Hb. cbv zeta. intro Ho.
  pose proof (seen_agr seeds n m k Hk cpds s K Es Hd zd vd Hreg j eqb Hfit Heq) as Hsame.
  set (ag := agr eqb zd vd m (arm_columns zd vd m j)) in *.
  rewrite <- (adjust_law seeds n m k eqb Hlaw Heq Hk cpds s K Es Hd Y a f s' Hf Hs' ag (wof eqb zd vd m (arm_columns zd vd m j))).
  - unfold adjusted. apply mean_ext_in. intros g p Hin. unfold mean_given, prob.
    apply (f_equal2 Rdiv); apply mean_ext_in; intros g' p' Hin'; rewrite (Hsame g p g' p' Hin Hin'); reflexivity.
  - intro e. now apply agr_refl.
  - intros e e'. now apply agr_cong.
  - intros e vs zs x1 z1 y1. now apply agr_wof.
  - intro e. apply wof_length.
  - intro e. now apply wof_pointed.
  - intros g p Hin Hp. specialize (Ho g p Hin Hp). revert Ho. unfold prob.
    rewrite (mean_ext_in (tapes seeds k) _ (fun g' => if same eqb (Some a) (drawn s n g' "X") && ag (drawn s n g) (drawn s n g') then 1%R else 0%R)); [trivial|].
    intros g' p' Hin'. now rewrite (Hsame g p g' p' Hin Hin').
Qed.
Print Assumptions C120_arm_identifies.

(** every other arm: there are CPDs for which the treatment has no effect and the adjustment for
    what the arm gets says 1/2, although it is named after variables that would do *)
Theorem C120_open_refuted : forall (N : Type) (o : numops N) (c0 c1 : N) (eqb : arr N -> arr N -> bool)
    big zd vd zc vc z0c m limit units latex alg j,
  c0 <> c1 -> decides eqb -> dims_fit zd vd m -> j < 2 ^ m ->
  ~ covers zd vd m (arm_columns zd vd m j) ->
  exists (seeds : law nat) (cpds : sdict (cpd N (list nat))) K g0 e g1 arm (Y : option (arr N) -> R) a1 a0,
    is_law seeds /\
    generate_example o big zd vd zc vc z0c m cpds limit units latex alg g0 = (Ok e, g1) /\
    (forall v f, paper_var m v -> entry cpds v f -> draws seeds 1 f (K v)) /\
    nth_error (e_arms e) (S j) = Some arm /\ mask_list (pa_mask arm) = arm_columns zd vd m j /\
    forall k, 2 * m + 3 <= k ->
      regular (tapes seeds k) (e_scm e) 1 m zd vd /\
      (forall a f s', (forall args g, f 1 args g = (Ok a, g)) -> replaces (e_scm e) "X" f s' ->
         mean (tapes seeds k) (fun g => Y (drawn s' 1 g "Y")) = (1/2)%R) /\
      let treated a := fun g => same eqb (Some a) (drawn (e_scm e) 1 g "X") in
      let agree := fun g g' => same eqb (seen (e_scm e) 1 (pa_mask arm) g) (seen (e_scm e) 1 (pa_mask arm) g') in
      overlap (tapes seeds k) (treated a1) agree /\ overlap (tapes seeds k) (treated a0) agree /\
      adjusted (tapes seeds k) (treated a1) agree (fun g => Y (drawn (e_scm e) 1 g "Y")) = (3/4)%R /\
      adjusted (tapes seeds k) (treated a0) agree (fun g => Y (drawn (e_scm e) 1 g "Y")) = (1/4)%R.
Proof.
  intros N o c0 c1 eqb big zd vd zc vc z0c m limit units latex alg j Hc Heq Hfit Hj Hb.
  destruct (not_covers zd vd m _ Hb) as (i0 & cv & cz & Hi & Hcv & Hcz & HnV & HnZ).
  set (cp := open_cpds c0 c1 eqb zd vd m i0 cv cz).
  destruct (open_scm c0 c1 eqb zd vd m i0 cv cz) as (s & Es). fold cp in Es.
  destruct (open_generates c0 c1 eqb zd vd m i0 cv cz Hi Hcv Hcz (2 * m + 3) s (le_n _) Es big) as (g0 & d & g1 & Hg).
  destruct (proj2 (C81_succeeds_iff N (list nat) o big zd vd zc vc z0c m cp limit units latex alg g0)) as (e & g1' & He).
  { split; [exact (proj1 (paper_scm_inv _ _ _ Es))|]. destruct Hfit as (_ & Ez & Ev & _). rewrite Ez, Ev.
    split; [lia|]. split; [lia|]. exists s, d, g1. now split. }
  exists four, cp, (K_of c0 c1 eqb zd vd m i0 cv cz), g0, e, g1'.
  pose proof He as He'.
  apply generate_example_spec in He' as (s1 & d0 & x & t & y & Es1 & Hz & Hv & _ & _ & _ & _ & ->).
  rewrite Es in Es1. injection Es1 as <-. cbn [e_scm e_arms] in *. unfold paper_arms. cbn [nth_error]. rewrite nth_error_map.
  rewrite (nth_error_nth' (seq 0 (2 ^ m)) 0) by now rewrite seq_length. rewrite seq_nth by exact Hj. cbn [option_map Nat.add].
  eexists. exists (resp c0 c1 eqb zd vd m i0 cv cz), (val c0 c1 zd vd m i0 cv cz "X" true), (val c0 c1 zd vd m i0 cv cz "X" false).
  split; [exact four_law|]. split; [exact He|]. split; [exact (open_draws c0 c1 eqb zd vd m i0 cv cz 1)|]. split; [reflexivity|].
  cbn [pa_mask backdoor_arm]. split; [apply arm_mask_list|].
  intros k Hk. split; [exact (open_regular c0 c1 eqb zd vd m i0 cv cz Hi Hcv Hcz k s Hk Es)|]. split.
  { intros a f s' Hf Hr. exact (open_do c0 c1 eqb zd vd m i0 cv cz Hc Heq Hi Hcv Hcz k s Hk Es a f s' Hf Hr). }
  cbv zeta.
  pose proof (open_overlap c0 c1 eqb zd vd m i0 cv cz Hc Heq Hi Hcv Hcz k s Hk Es j Hfit HnV HnZ) as HO.
  pose proof (open_adjusted c0 c1 eqb zd vd m i0 cv cz Hc Heq Hi Hcv Hcz k s Hk Es j Hfit HnV HnZ) as HA.
  split; [exact (HO true)|]. split; [exact (HO false)|]. split; [exact (HA true)|exact (HA false)].
Qed.
Print Assumptions C120_open_refuted.

(** the notebook's dimensions, 3 for every Z_i and 2 for every V_i: with two paths or more no arm's
    columns do, whatever the dimension of Z0 *)
Theorem C120_notebook_refuted : forall z0 m j, 2 <= m ->
  dims_fit (z0 :: repeat 3 m) (0 :: repeat 2 m) m /\
  ~ covers (z0 :: repeat 3 m) (0 :: repeat 2 m) m (arm_columns (z0 :: repeat 3 m) (0 :: repeat 2 m) m j).
Proof.
  intros z0 m j Hm. split; [|now apply notebook_open].
  split; [lia|]. cbn [List.length]. rewrite !repeat_length. repeat (split; [reflexivity|]).
  intros i Hi. rewrite !nth_cons_repeat by exact Hi. lia.
Qed.
Print Assumptions C120_notebook_refuted.

(** equal dimensions: an arm gets whole variables *)
Theorem C120_equal_dims : forall zd vd m d j, equal_dims zd vd m d -> 1 <= d ->
  (covers zd vd m (arm_columns zd vd m j) <-> blocks m (map (read_var m j) (seq 1 m))).
Proof. exact covers_blocks. Qed.
Print Assumptions C120_equal_dims.

(** which arms get V_i or Z_i for every path then. An even number of paths: those that observe V on
    exactly one of the paths 2t+1 and 2t+2, for every t *)
Theorem C120_even : forall h j, blocks (2 * h) (map (read_var (2 * h) j) (seq 1 (2 * h))) <->
  forall t, t < h -> observes_v j (2 * t + 1) <> observes_v j (2 * t + 2).
Proof.
  intros h j. rewrite blocks_even. split; intros H t Ht; specialize (H t Ht); revert H; unfold observes_v;
    replace (2 * t + 1 - 1) with (2 * t) by lia; replace (2 * t + 2 - 1) with (2 * t + 1) by lia; trivial.
Qed.
Print Assumptions C120_even.

(** an odd number of paths: the two that alternate between V and Z *)
Theorem C120_odd : forall h j, let m := 2 * h + 1 in blocks m (map (read_var m j) (seq 1 m)) <->
  (forall i, 1 <= i <= m -> observes_v j i = Nat.odd i) \/ (forall i, 1 <= i <= m -> observes_v j i = Nat.even i).
Proof.
  intros h j m. unfold m. rewrite (blocks_odd h j). fold m.
  assert (Hs : forall i, Nat.odd (S i) = Nat.even i) by (intro i; unfold Nat.odd; rewrite Nat.even_succ; unfold Nat.odd; apply negb_involutive).
  assert (He : forall i, Nat.even (S i) = Nat.odd i) by (intro i; apply Nat.even_succ).
  split; (intros [H|H]; [left|right]); intros i Hi.
  - unfold observes_v. rewrite (H (i - 1)) by lia. rewrite <- Hs. f_equal. lia.
  - unfold observes_v. rewrite (H (i - 1)) by lia. rewrite <- He. f_equal. lia.
  - specialize (H (S i) ltac:(lia)). unfold observes_v in H. rewrite Hs in H. cbn [Nat.sub] in H. now rewrite Nat.sub_0_r in H.
  - specialize (H (S i) ltac:(lia)). unfold observes_v in H. rewrite He in H. cbn [Nat.sub] in H. now rewrite Nat.sub_0_r in H.
Qed.
Print Assumptions C120_odd.

(** with two paths or more, neither the arm named Z_1...Z_m nor the arm named V_1...V_m does *)
Theorem C120_pure_refuted : forall m j, 2 <= m ->
  (forall i, 1 <= i <= m -> observes_v j i = false) \/ (forall i, 1 <= i <= m -> observes_v j i = true) ->
  ~ blocks m (map (read_var m j) (seq 1 m)).
Proof.
  intros m j Hm H Hb. destruct (Nat.Even_or_Odd m) as [(h & ->)|(h & ->)].
  - apply (proj1 (C120_even h j) Hb 0 ltac:(lia)). cbn [Nat.mul Nat.add].
    destruct H as [H|H]; rewrite !H by lia; reflexivity.
  - apply (C120_odd h j) in Hb as [Hb|Hb]; pose proof (Hb 1 ltac:(lia)) as H1; pose proof (Hb 2 ltac:(lia)) as H2;
      destruct H as [H|H]; rewrite H in H1, H2 by lia; discriminate.
Qed.
Print Assumptions C120_pure_refuted.

(** two paths: the arms named Z_1Z_2 and V_1V_2 leave a path open, the two mixed ones do not;
    three paths: only V_1Z_2V_3 and Z_1V_2Z_3 do not *)
Example C120_case :
  map (fun j => (arm_name 2 j, map (read_var 2 j) [1; 2])) [0; 1; 2; 3] =
  [("Z_1Z_2", ["V1"; "Z1"]); ("V_1Z_2", ["V2"; "Z1"]); ("Z_1V_2", ["V1"; "Z2"]); ("V_1V_2", ["V2"; "Z2"])]%string /\
  ~ blocks 2 (map (read_var 2 0) (seq 1 2)) /\ blocks 2 (map (read_var 2 1) (seq 1 2)) /\
  blocks 2 (map (read_var 2 2) (seq 1 2)) /\ ~ blocks 2 (map (read_var 2 3) (seq 1 2)) /\
  forall j, j < 8 -> (blocks 3 (map (read_var 3 j) (seq 1 3)) <-> j = 2 \/ j = 5).
Proof.
  split; [reflexivity|]. split; [|split; [|split; [|split]]].
  - apply C120_pure_refuted; [lia|]. left. intros i Hi. unfold observes_v. apply Nat.bits_0.
  - apply (proj2 (C120_even 1 1)). intros t Ht. assert (t = 0) as -> by lia. discriminate.
  - apply (proj2 (C120_even 1 2)). intros t Ht. assert (t = 0) as -> by lia. discriminate.
  - apply C120_pure_refuted; [lia|]. right. intros i Hi. assert (i = 1 \/ i = 2) as [-> | ->] by lia; reflexivity.
  - intros j Hj. rewrite (C120_odd 1 j). cbn [Nat.mul Nat.add].
    assert (Hall : forall P : nat -> Prop, (forall i, 1 <= i <= 3 -> P i) <-> P 1 /\ P 2 /\ P 3).
    { intro P. split; [intro H; repeat split; apply H; lia|]. intros (H1 & H2 & H3) i Hi.
      assert (i = 1 \/ i = 2 \/ i = 3) as [-> | [-> | ->]] by lia; assumption. }
    rewrite !Hall.
    do 8 (destruct j as [|j]; [vm_compute; intuition (congruence || discriminate)|]). lia.
Qed.

(** one path, the SCM of C118_case: both arms meet the hypotheses of C120_arm_identifies (for
    C120_open_refuted, C120_case has two arms that leave a path open) *)
Example C120_case2 : forall (o : numops nat), exists e g1,
  generate_example o 1 [1; 1] [0; 1] 1 1 1 1 cpds3 10%Z 1 false FINITE_SAMPLE [0; 0; 0; 0; 0] = (Ok e, g1) /\ e_scm e = scm3 /\
  dims_fit [1; 1] [0; 1] 1 /\ regular (tapes law3 5) scm3 1 1 [1; 1] [0; 1] /\
  forall j, j < 2 -> exists arm, nth_error (e_arms e) (S j) = Some arm /\ covers [1; 1] [0; 1] 1 (mask_list (pa_mask arm)) /\
    overlap (tapes law3 5) (fun g => same arr_eqb (Some (cell 1)) (drawn (e_scm e) 1 g "X"))
      (fun g g' => same arr_eqb (seen (e_scm e) 1 (pa_mask arm) g) (seen (e_scm e) 1 (pa_mask arm) g')).
Proof.
  intro o.
  destruct (proj2 (C81_succeeds_iff nat (list nat) o 1 [1; 1] [0; 1] 1 1 1 1 cpds3 10%Z 1 false FINITE_SAMPLE [0; 0; 0; 0; 0])) as (e & g1 & He).
  { split; [exact (proj1 (paper_scm_inv _ _ _ scm3_ok))|]. cbn [List.length]. split; [lia|]. split; [lia|].
    exists scm3. do 2 eexists. split; [reflexivity|]. reflexivity. }
  exists e, g1. split; [exact He|].
  apply generate_example_spec in He as (s & d0 & x & t & y & Es & Hz & Hv & _ & _ & _ & _ & ->).
  rewrite scm3_ok in Es. injection Es as <-. cbn [e_scm e_arms]. split; [reflexivity|].
  assert (Hd : equal_dims [1; 1] [0; 1] 1 1).
  { repeat split; assert (i = 1) as -> by lia; reflexivity. }
  split.
  { repeat split; try lia; assert (i = 1) as -> by lia; cbn; lia. }
  split.
  - intros g p Hin. apply tapes_words in Hin.
    assert (Hb : forall v b, In v ["V1"; "Z1"; "X"; "Z0"; "Y"]%string -> drawn scm3 1 g v = Some b -> shaped 1 b /\ List.length (arows b) = 1).
    { intros v b Hv' Hb.
      assert (Hall : forallb (fun g => forallb (fun v => match drawn scm3 1 g v with
          Some b => match atail b, arows b with [1], [[_]] => true | _, _ => false end | None => false end)
          ["V1"; "Z1"; "X"; "Z0"; "Y"]%string) (words [0; 1; 2] 5) = true) by (vm_compute; reflexivity).
      rewrite forallb_forall in Hall. specialize (Hall g Hin). rewrite forallb_forall in Hall. specialize (Hall v Hv').
      rewrite Hb in Hall. destruct b as [ta ra]. cbn [atail arows] in *.
      destruct ta as [|[|[|]] [|]]; try discriminate Hall. destruct ra as [|[|? [|]] [|]]; try discriminate Hall.
      split; [split; [reflexivity|repeat constructor]|reflexivity]. }
    split; [split; [|split]|].
    + intros a Ha. apply (Hb "Z0"%string a); [cbn; tauto|exact Ha].
    + intros i a Hi Ha. assert (i = 1) as -> by lia. apply (Hb "Z1"%string a); [cbn; tauto|exact Ha].
    + intros i a Hi Ha. assert (i = 1) as -> by lia. apply (Hb "V1"%string a); [cbn; tauto|exact Ha].
    + intros v b Hv' Ha. apply (Hb v b); [|exact Ha]. destruct Hv'; try (assert (i = 1) as -> by lia); cbn; tauto.
  - assert (Hov : forall j, j = 0 \/ j = 1 -> overlap (tapes law3 5) (fun g => same arr_eqb (Some (cell 1)) (drawn scm3 1 g "X"))
      (fun g g' => same arr_eqb (seen scm3 1 (arm_mask [1; 1] [0; 1] 1 j) g) (seen scm3 1 (arm_mask [1; 1] [0; 1] 1 j) g'))).
    { intros j Hj. apply (overlap_words [0; 1; 2] (1/3)%R ltac:(lra) 5 _ _ [[0; 0; 0; 0; 0]; [2; 0; 0; 0; 0]]).
      - intros u v w Hu Hw. apply (same_iff arr_eqb arr_eqb_decides) in Hu. apply (same_iff arr_eqb arr_eqb_decides) in Hw.
        apply (same_iff arr_eqb arr_eqb_decides). congruence.
      - destruct Hj as [-> | ->]; vm_compute; reflexivity.
      - destruct Hj as [-> | ->]; vm_compute; reflexivity. }
    intros j Hj.
    assert (Hcv : covers [1; 1] [0; 1] 1 (arm_columns [1; 1] [0; 1] 1 j)).
    { apply (C120_equal_dims _ _ _ 1 j Hd (le_n 1)), (proj2 (C120_odd 0 j)).
      assert (j = 0 \/ j = 1) as [-> | ->] by lia; [right|left]; intros i Hi; assert (i = 1) as -> by lia; reflexivity. }
    assert (j = 0 \/ j = 1) as [-> | ->] by lia; (eexists; split; [reflexivity|]; cbn [pa_mask backdoor_arm]; rewrite arm_mask_list;
      split; [exact Hcv|apply Hov; tauto]).
Qed.

(** two paths with the notebook's dimensions: what the arm named Z_1Z_2 gets *)
Example C120_case3 : dims_fit [2; 3; 3] [0; 2; 2] 2 /\ arm_name 2 0 = "Z_1Z_2"%string /\
  map (fun p => nth_error (labels [2; 3; 3] [0; 2; 2] 2) p) (arm_columns [2; 3; 3] [0; 2; 2] 2 0) =
  [Some ("V1", 0); Some ("V1", 1); Some ("Z1", 0); Some ("Z1", 1); Some ("Z1", 2); Some ("V2", 0)]%string.
Proof. split; [exact (proj1 (C120_notebook_refuted 2 2 0 (le_n 2)))|]. split; reflexivity. Qed.
