(** Property theorems C98 and C99 (plots of bandit results, plots of functions). *)
From Coq Require Import String List Arith ZArith Reals Lia Lra Bool.
From Verif Require Import PyBase PyLemmas Num NumLemmas NumOps DataModel ScmModel TabSpec TabReal UtilModel BanditModel BanditSpec
  BanditProofs1 BanditProofs2 BanditProps CpdModel CpdSpec SecSpec2 SecProofs5 CpdProps SecProps SecProps2 SecProps3 PlotModel PlotSpec PlotProofs PlotProofs2.
Import ListNotations.
Open Scope list_scope.
Open Scope nat_scope.

(** ** C98 *)
Section Results.
Context {A D G : Type}.
Implicit Types (ops : arm_ops A D G) (w : world D G) (arms : list A) (s : bstate (A := A) (G := G)).

Lemma first_drawn_slice s k : forall Y (l' : list Y), length l' = length (b_cum s) ->
  slice_from k l' = skipn (first_drawn (length (b_cum s)) k) l'.
Proof.
  intros Y l' Hl. destruct k as [z|]; [|reflexivity]. unfold slice_from, first_drawn.
  destruct (Z.ltb_spec z 0), (Z.leb_spec 0 z); try lia; [|reflexivity]. f_equal. lia.
Qed.

(** the result of any finished run can be plotted, for any of its arms and any number of
    ignored rounds: four marks per arm, showing exactly what was recorded *)
Theorem C98_plots : forall alg ops w cfg fuel all arms g best s,
  run alg ops w cfg fuel all arms g = Returned best s ->
  forall names k arm_list ax, length names = length arms -> (forall i, In i arm_list -> i < length arms) ->
  exists groups, Forall2 (arm_marks s names (first_drawn (length (b_cum s)) k)) arm_list groups /\
    plot_bandit_results names (bandit_data best s) k arm_list ax = (ax ++ concat groups, Ok tt) /\
    legend (ax ++ concat groups) = legend ax ++ map (fun i => nth i names ""%string) arm_list.
Proof.
  intros alg ops w cfg fuel all arms g best s Hr names k arm_list ax Hn Ha.
  pose proof (run_shape ops w cfg alg fuel all arms g) as Hs. rewrite Hr in Hs.
  destruct (plot_results_ok ops _ s best names k _ Hs Hn (first_drawn_slice s k) arm_list [] ax Ha) as (gs & Hg & E).
  rewrite app_nil_r in E. exists gs. split; [exact Hg|]. split; [exact E|].
  unfold legend at 1. rewrite flat_map_app. f_equal. eapply legend_groups. exact Hg.
Qed.

(** an arm of another bandit raises KeyError; the arms before it have been drawn *)
Theorem C98_foreign_arm : forall alg ops w cfg fuel all arms g best s,
  run alg ops w cfg fuel all arms g = Returned best s ->
  forall names k before i after ax, length names = length arms -> (forall j, In j before -> j < length arms) -> length arms <= i ->
  exists groups, Forall2 (arm_marks s names (first_drawn (length (b_cum s)) k)) before groups /\
    plot_bandit_results names (bandit_data best s) k (before ++ i :: after) ax = (ax ++ concat groups, Err KeyError).
Proof.
  intros alg ops w cfg fuel all arms g best s Hr names k before i after ax Hn Ha Hi.
  pose proof (run_shape ops w cfg alg fuel all arms g) as Hs. rewrite Hr in Hs.
  destruct (plot_results_ok ops _ s best names k _ Hs Hn (first_drawn_slice s k) before (i :: after) ax Ha) as (gs & Hg & E).
  exists gs. split; [exact Hg|]. rewrite E. cbn [plot_bandit_results]. rewrite (plot_arm_missing ops _ _ _ _ _ _ _ Hs Hi). reflexivity.
Qed.

(** along every curve the number of samples strictly increases *)
Theorem C98_axis_increases : forall alg ops w cfg fuel all arms g best s,
  run alg ops w cfg fuel all arms g = Returned best s -> arms <> [] -> 0 < c_units cfg ->
  forall k i sel xs ys, curve s k i sel xs ys -> forall t t' x x', t < t' ->
    nth_error xs t = Some x -> nth_error xs t' = Some x' -> x < x'.
Proof.
  intros alg ops w cfg fuel all arms g best s Hr Hne Hu k i sel xs ys (Hl & _ & Hc) t t' x x' Htt Hx.
  revert x'. induction Htt as [|t' Htt IH]; intros x' Hx'.
  - assert (HS : S t < length (b_cum s) - k) by (rewrite <- Hl; apply nth_error_Some; congruence).
    rewrite (proj1 (Hc t ltac:(lia))) in Hx. rewrite (proj1 (Hc (S t) HS)) in Hx'. rewrite Nat.add_succ_r in Hx'.
    pose proof (cum_grows ops w cfg alg fuel all arms g best s Hr _ _ _ Hx Hx') as Hg.
    assert (Hk : 0 < length arms) by (destruct arms; [congruence|simpl; lia]). destruct alg; nia.
  - assert (HS : S t' < length (b_cum s) - k) by (rewrite <- Hl; apply nth_error_Some; congruence).
    destruct (nth_error xs t') as [y|] eqn:Ey; [|apply nth_error_None in Ey; lia]. specialize (IH y eq_refl).
    rewrite (proj1 (Hc t' ltac:(lia))) in Ey. rewrite (proj1 (Hc (S t') HS)) in Hx'. rewrite Nat.add_succ_r in Hx'.
    pose proof (cum_grows ops w cfg alg fuel all arms g best s Hr _ _ _ Ey Hx') as Hg. lia.
Qed.
End Results.
Print Assumptions C98_plots.
Print Assumptions C98_foreign_arm.
Print Assumptions C98_axis_increases.

(** data not produced by run(): an arm can be drawn exactly when its four sequences are there and
    equally long *)
Theorem C98_any_data : forall names bd i name ax, nth_error names i = Some name ->
  (exists ax', plot_arm names bd default_ignore i ax = (ax', Ok tt)) <->
  exists mid lo hi, nth_error (bd_var bd) i = Some mid /\ nth_error (bd_lcb bd) i = Some lo /\ nth_error (bd_ucb bd) i = Some hi /\
    length mid = length (bd_cum bd) /\ length lo = length (bd_cum bd) /\ length hi = length (bd_cum bd).
Proof.
  intros names bd i name ax En. unfold plot_arm, by_arm, default_ignore. rewrite En.
  change (@slice_from nat (Some 0%Z)) with (fun l : list nat => l). change (@slice_from F (Some 0%Z)) with (fun l : list F => l).
  destruct (nth_error (bd_var bd) i) as [mid|]; [|split; [intros (? & H); discriminate H|intros (? & ? & ? & H & _); discriminate H]].
  destruct (nth_error (bd_lcb bd) i) as [lo|]; [|split; [intros (? & H); discriminate H|intros (? & ? & ? & _ & H & _); discriminate H]].
  destruct (nth_error (bd_ucb bd) i) as [hi|]; [|split; [intros (? & H); discriminate H|intros (? & ? & ? & _ & _ & H & _); discriminate H]].
  cbn [bind]. unfold ax_plot, ax_fill_between.
  destruct (Nat.eqb_spec (length (bd_cum bd)) (length mid)) as [E1|E1]; cbn [and_then];
    [|split; [intros (? & H); discriminate H|intros (? & ? & ? & H1 & H2 & H3 & H4 & H5 & H6); exfalso; congruence]].
  destruct (Nat.eqb_spec (length (bd_cum bd)) (length lo)) as [E2|E2]; cbn [and_then];
    [|split; [intros (? & H); discriminate H|intros (? & ? & ? & H1 & H2 & H3 & H4 & H5 & H6); exfalso; congruence]].
  destruct (Nat.eqb_spec (length (bd_cum bd)) (length hi)) as [E3|E3]; cbn [and_then andb];
    [|split; [intros (? & H); discriminate H|intros (? & ? & ? & H1 & H2 & H3 & H4 & H5 & H6); exfalso; congruence]].
  split; [|eauto]. intros _. exists mid, lo, hi. auto 8.
Qed.
Print Assumptions C98_any_data.

(** what is visible of a mark: positions on the axis, whether the values are as given, label *)
Definition seen (m : mark) (vals : list Z) : list nat * bool * option string :=
  match m with
  | Line xs ys l _ => (xs, forallb (fun p => feqb (fst p) (f_of_Z (snd p))) (combine ys vals), l)
  | Band xs lo hi _ => (xs, forallb (fun p => feqb (fst p) (f_of_Z (snd p))) (combine (lo ++ hi) vals), None)
  end.
Example C98_case :
  let o := run SE script_ops toy_world (cfg_of 100 2) 5 None three 7 in
  let bd := bandit_data [1] (final_state o) in
  let names := ["a"; "b"; "c"]%string in
  let look (r : list mark * res unit) := (map2 seen (fst r) [[5]; [5]; [6]; [5; 6]; [3]; [3]; [4]; [3; 4]]%Z, snd r) in
  let expected := ([([10], true, Some "a"%string); ([10], true, None); ([10], true, None); ([10], true, None);
                    ([10], true, Some "c"%string); ([10], true, None); ([10], true, None); ([10], true, None)], Ok tt) in
  o = Returned [1] (final_state o) /\ length (b_cum (final_state o)) = 2
  /\ look (plot_bandit_results names bd (Some 1%Z) [0; 2] []) = expected
  /\ look (plot_bandit_results names bd (Some (-1)%Z) [0; 2] []) = expected
  /\ snd (plot_bandit_results names bd None [0; 3] []) = Err KeyError
  /\ snd (plot_bandit_results names (mkBanditData (bd_lcb bd) (bd_ucb bd) (bd_var bd) (bd_smp bd) [6] [1]) None [0] []) = Err ValueError.
Proof. cbv zeta. split; [apply returned_final; vm_compute; reflexivity|]. repeat split; vm_compute; reflexivity. Qed.

(** ** C99 *)
Open Scope R_scope.

(** a function with one value per point, returned as a vector or as one column *)
Theorem C99_surface : forall f c (phi : list R -> R) x0 x1 y0 y1,
  (forall rows, matrix (100 * 100) 2 rows -> f (rmat 2 rows) = Ok (mkArr c (map (fun row => [Fin (phi row)]) rows))) ->
  exists X Y Z, plot_3d_function xreal f (Fin x0) (Fin x1) (Fin y0) (Fin y1) = Ok (X, Y, Z) /\
    square 100 X /\ square 100 Y /\ square 100 Z /\
    forall i j, (i < 100)%nat -> (j < 100)%nat ->
      let x := x0 + (x1 - x0) * INR j / 99 in
      let y := y0 + (y1 - y0) * INR i / 99 in
      cell X i j = Some (Fin x) /\ cell Y i j = Some (Fin y) /\ cell Z i j = Some (Fin (phi [x; y])).
Proof.
  intros f c phi x0 x1 y0 y1 Hf. unfold plot_3d_function.
  assert (H99 : INR (100 - 1) = 99) by (rewrite INR_IZR_INZ; reflexivity).
  assert (H1 : (1 < 100)%nat) by lia.
  rewrite (surface_x 100 x0 x1 y0 y1 H1 f c (fun row => [phi row])); [|exact Hf|reflexivity].
  do 3 eexists. split; [reflexivity|]. do 3 (split; [apply table_square|]). intros i j Hi Hj. cbv zeta.
  rewrite !cell_table by assumption. unfold axis_point. rewrite H99. auto.
Qed.
Print Assumptions C99_surface.

(** a function with another number of values per point cannot be drawn *)
Theorem C99_wrong_width : forall f c k (phi : list R -> list R) x0 x1 y0 y1, k <> 1%nat ->
  (forall rows, matrix (100 * 100) 2 rows -> f (rmat 2 rows) = Ok (mkArr c (map (fun row => map Fin (phi row)) rows))) ->
  (forall row, length (phi row) = k) ->
  plot_3d_function xreal f (Fin x0) (Fin x1) (Fin y0) (Fin y1) = Err ValueError.
Proof. intros f c k phi x0 x1 y0 y1 Hk Hf Hp. exact (surface_wrong 100 x0 x1 y0 y1 ltac:(lia) f c k phi Hk Hf Hp). Qed.
Print Assumptions C99_wrong_width.

(** the random functions of the package with two inputs: drawn when they have one output, not
    drawn when they have more *)
Theorem C99_random_function : forall (G M : Type) (w : cpd_world X G) (gpr : gp X M) fitted value,
  real_gp gpr fitted value -> sane_global w -> forall b k g f g', (1 <= k)%nat -> make_rfun xreal w gpr b 2 k g = (Ok f, g') ->
  forall x0 x1 y0 y1,
  (k = 1%nat -> exists m X Y Z, fitted 2%nat m /\ plot_3d_function xreal (rcall gpr f) (Fin x0) (Fin x1) (Fin y0) (Fin y1) = Ok (X, Y, Z) /\
     forall i j x y, cell X i j = Some (Fin x) -> cell Y i j = Some (Fin y) -> cell Z i j = Some (Fin (value m [x; y]))) /\
  (k <> 1%nat -> plot_3d_function xreal (rcall gpr f) (Fin x0) (Fin x1) (Fin y0) (Fin y1) = Err ValueError).
Proof.
  intros G M w gpr fitted value Hg Hw b k g f g' Hk E x0 x1 y0 y1.
  destruct (make_rfun_x w gpr fitted value Hg Hw b 2 k g ltac:(lia) Hk) as (m & Fm & E'). rewrite E in E'. injection E' as -> ->.
  assert (Hf : forall rows, matrix (100 * 100) 2 rows -> rcall gpr (k, repeat m k) (rmat 2 rows) = Ok (mkArr [k] (map (fun row => map Fin (repeat (value m row) k)) rows))).
  { intros rows Hr. rewrite (rcall_x gpr fitted value Hg 2 m k (100 * 100) rows Fm Hk ltac:(lia) Hr). unfold rmat. now rewrite map_map. }
  split; intros Hk1.
  - subst k. destruct (C99_surface _ _ (value m) x0 x1 y0 y1 Hf) as (X & Y & Z & Ep & [HX1 HX2] & _ & _ & Hc).
    exists m, X, Y, Z. split; [exact Fm|]. split; [exact Ep|]. intros i j x y Hx Hy.
    assert (Hi : (i < 100)%nat /\ (j < 100)%nat).
    { unfold cell in Hx. destruct (nth_error X i) as [r|] eqn:Er; [|discriminate]. split; [rewrite <- HX1; apply nth_error_Some; congruence|].
      rewrite Forall_forall in HX2. rewrite <- (HX2 r (nth_error_In _ _ Er)). apply nth_error_Some. congruence. }
    destruct (Hc i j (proj1 Hi) (proj2 Hi)) as (H1 & H2 & H3). rewrite H1 in Hx. rewrite H2 in Hy. injection Hx as <-. injection Hy as <-. exact H3.
  - apply (C99_wrong_width _ [k] k (fun row => repeat (value m row) k)); [exact Hk1|exact Hf|]. intros row. apply repeat_length.
Qed.
Print Assumptions C99_random_function.

Example C99_case : exists X Y Z,
  plot_3d_function xreal (fun a => Ok (vec (map (fun r => match r with [Fin u; Fin v] => Fin (u * v) | _ => XNaN end) (arows a)))) (Fin 0) (Fin 99) (Fin (-1)) (Fin 1) = Ok (X, Y, Z)
  /\ cell X 99 4 = Some (Fin 4) /\ cell Y 99 4 = Some (Fin 1) /\ cell Z 99 4 = Some (Fin 4)
  /\ real_gp flat (fun _ _ => True) (fun m _ => m) /\ sane_global quiet /\ exists m, make_rfun xreal quiet flat 2 2 3 tt = (Ok (3%nat, [m; m; m]), tt).
Proof.
  destruct (C99_surface (fun a => Ok (vec (map (fun r => match r with [Fin u; Fin v] => Fin (u * v) | _ => XNaN end) (arows a)))) []
    (fun row => nth 0 row 0 * nth 1 row 0) 0 99 (-1) 1) as (X & Y & Z & E & _ & _ & _ & H).
  { intros rows [_ Hr]. f_equal. unfold vec, rmat. cbn [arows]. f_equal. rewrite !map_map. apply map_ext_in. intros row Hin.
    rewrite Forall_forall in Hr. specialize (Hr row Hin). destruct row as [|u [|v [|]]]; try discriminate. reflexivity. }
  exists X, Y, Z. split; [exact E|]. destruct (H 99%nat 4%nat ltac:(lia) ltac:(lia)) as (H1 & H2 & H3). cbv zeta in H1, H2, H3. rewrite H1, H2, H3. cbn [nth].
  rewrite !INR_IZR_INZ. cbn [Z.of_nat Pos.of_succ_nat Pos.succ]. do 3 (split; [do 2 f_equal; lra|]). split; [|split].
  - exact flat_real.
  - exact quiet_sane.
  - destruct (make_rfun_x quiet flat _ _ flat_real quiet_sane 2 2 3 tt) as (m & _ & E'); [lia|lia|]. exists m. exact E'.
Qed.
