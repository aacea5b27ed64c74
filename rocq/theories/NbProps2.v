(** Property theorems C103-C105 (cells of the notebook). *)
From Coq Require Import String List Arith ZArith Reals Lia Lra Bool Sorting.Sorted.
From Verif Require Import PyBase PyLemmas Num NumLemmas NumOps DataModel ScmModel ScmProofs TabSpec TabReal ArmModel BanditModel ParamModel PaperModel PaperSpec PaperProofs PaperProofs2 ScmProps PaperProps UtilModel UtilSpec UtilProps ExampleModel ExampleSpec ExampleProps CpdModel CpdSpec CpdProofs CpdProps SecSpec SecSpec2 SecProofs SecProofs2 SecProofs5 SecProofs6 SecProofs7 SecProps SecProps2 SecProps3 NbModel NbSpec NbProofs4.
From Verif Require Import ScmSpec.
Import ListNotations.
Open Scope list_scope.
Open Scope nat_scope.

(** ** C103 *)
Lemma z_dims_positive n : Forall (fun d => 1 <= d) (z_dims n).
Proof. unfold z_dims. constructor; [lia|]. apply Forall_forall. intros x Hx. apply repeat_spec in Hx. lia. Qed.
Lemma v_dims_positive n : Forall (fun d => 1 <= d) (tl (v_dims n)).
Proof. unfold v_dims. cbn [tl]. apply Forall_forall. intros x Hx. apply repeat_spec in Hx. lia. Qed.
Lemma dims_length n : length (z_dims n) = S n /\ length (v_dims n) = S n.
Proof. unfold z_dims, v_dims. cbn [length]. now rewrite !repeat_length. Qed.

Section Continued.
  Context {G Q M : Type} (w : cpd_world X G) (r : rng_world X Q) (gpr : gp X M) (fitted : nat -> M -> Prop) (value : M -> list R -> R).
  Hypothesis Hr : real_rng r.
  Hypothesis Hg : real_gp gpr fitted value.
  Hypothesis Hs : sane_global w.
  Hypothesis Hw : regular w.

  (** with more than three back-door paths no instance can be constructed: the call asks for three
      paths whatever their number, and sampling for the scale raises *)
Theorem C103_more_paths_refuted : forall big b limit instance ent fuel g, 1 <= big -> 4 <= b ->
    (exists g', instance_52 xreal w r gpr notebook_paths big b limit instance ent fuel g = OutOfFuel g')
    \/ exists g', instance_52 xreal w r gpr notebook_paths big b limit instance ent fuel g = Raised IndexError g'.
  Proof.
    intros big b limit instance ent fuel g Hbig Hb. destruct (dims_length b) as [Lz Lv]. unfold instance_52, section_5_2_example, notebook_paths.
    destruct (section_5_2_shape w r gpr fitted value Hr Hg Hs (z_dims b) (v_dims b) 3 ent (Some (Z.of_nat instance)) fuel g ltac:(lia) ltac:(lia) (z_dims_positive b) (v_dims_positive b))
      as [(g' & E)|(S0 & p0 & p1 & fy & fx & h & d & g1 & E & _)]; rewrite E; [left; eauto|right].
    destruct (C97_long_lists w r gpr fitted value Hr Hg Hs Hw (z_dims b) (v_dims b) 3 ent (Some (Z.of_nat instance)) fuel g d g1 big E (z_dims_positive b) (v_dims_positive b) Hbig)
      as (s & Es & Hf); [left; lia|]. destruct (Hf g1) as (g' & Eg). exists g'.
    unfold generate_example. rewrite Es. cbn [bind]. rewrite index_lists_ok by lia. cbn [bind]. rewrite (at_ok (z_dims b) 0 0) by lia. cbn [bind fst snd].
    rewrite selection_masks_ok by lia. cbn [bind]. now rewrite Eg.
  Qed.

  (** so the cell never gets to its figure, whatever the runs of the bandits do *)
Theorem C103_cell_refuted : forall big evaluate ent fuel g res g', 1 <= big ->
    continued_cell xreal w r gpr notebook_paths evaluate big ent fuel g <> Returned res g'.
  Proof.
    intros big evaluate ent fuel g res g' Hbig.
    assert (H : forall todo i acc g0, Exists (fun q => 4 <= fst q) todo -> continued xreal w r gpr notebook_paths evaluate big todo i acc ent fuel g0 <> Returned res g').
    { induction todo as [|[b limit] todo IH]; intros i acc g0 Hex; [inversion Hex|]. cbn [continued]. intros E. inversion Hex as [? ? H4|? ? H4]; subst.
      - cbn [fst] in H4. destruct (C103_more_paths_refuted big b limit i ent fuel g0 Hbig H4) as [(g1 & E')|(g1 & E')]; rewrite E' in E; discriminate.
      - destruct (instance_52 xreal w r gpr notebook_paths big b limit i ent fuel g0) as [ex g1|e g1|g1]; try discriminate.
        destruct (evaluate i ex g1) as [n g2|e g2|g2]; try discriminate. exact (IH _ _ _ H4 E). }
    apply H. apply Exists_exists. exists (4, 100000%Z). split; [|cbn; lia]. apply (nth_error_In _ 10). reflexivity.
  Qed.

  (** with the number of paths of the instance as argument every instance can be constructed *)
Theorem C103_own_paths : forall big b limit instance ent fuel g, 1 <= big -> 1 <= b ->
    (exists g', instance_52 xreal w r gpr (fun n => n) big b limit instance ent fuel g = OutOfFuel g')
    \/ exists e g', instance_52 xreal w r gpr (fun n => n) big b limit instance ent fuel g = Returned e g' /\ length (e_arms e) = S (2 ^ b).
  Proof.
    intros big b limit instance ent fuel g Hbig Hb. destruct (dims_length b) as [Lz Lv].
    exact (C97_example w r gpr fitted value Hr Hg Hs Hw big (z_dims b) (v_dims b) (Z.of_nat instance) _ _ _ b limit 500 false ent fuel g Hb Lz Lv (z_dims_positive b) (v_dims_positive b) Hbig).
  Qed.
End Continued.
Print Assumptions C103_more_paths_refuted.
Print Assumptions C103_cell_refuted.
Print Assumptions C103_own_paths.

(** ** C104 *)
Section Loop.
Context {St : Type}.
Implicit Types (probe : nat -> St -> res bool * St) (repetition : nat -> nat -> St -> res (nat * nat * nat) * St) (P : nat -> nat -> nat * nat * nat -> Prop).

(** when the loop is left, every accepted instance has been recorded n_repetitions times, instances
    in increasing order, and the entries of the lists belong together *)
Theorem C104_returned : forall probe repetition n_instances n_repetitions P fuel st x, 1 <= n_repetitions ->
  (forall i m st n st', repetition i m st = (Ok n, st') -> P i m n) ->
  experiment probe repetition n_instances n_repetitions fuel st = Returned tt x ->
  exists accepted, length accepted = n_instances /\ StronglySorted lt accepted /\ (forall i, In i accepted -> i < l_next x) /\
    l_history x = each n_repetitions accepted /\ length (l_lucb x) = n_instances * n_repetitions /\ same_length x /\ entries_match n_repetitions P x.
Proof.
  intros probe repetition ni nr P fuel st x Hnr HP E. pose proof (run_spec probe repetition ni nr P HP Hnr fuel [] _ (head_start ni nr P st)) as H.
  unfold experiment in E. rewrite E in H. destruct H as (acc & ((H1 & H2) & H3 & H4 & H5 & H6 & _) & Hl). exists acc. rewrite Hl in H3.
  repeat (split; [assumption|]). assumption.
Qed.

(** when it is left by an exception the last repetition may be recorded in the history only *)
Theorem C104_raised : forall probe repetition n_instances n_repetitions P fuel st e x, 1 <= n_repetitions ->
  (forall i m st n st', repetition i m st = (Ok n, st') -> P i m n) ->
  experiment probe repetition n_instances n_repetitions fuel st = Raised e x ->
  same_length x /\ entries_match n_repetitions P x /\
  (length (l_history x) = length (l_lucb x) \/ length (l_history x) = S (length (l_lucb x))).
Proof.
  intros probe repetition ni nr P fuel st e x Hnr HP E. pose proof (run_spec probe repetition ni nr P HP Hnr fuel [] _ (head_start ni nr P st)) as H.
  unfold experiment in E. rewrite E in H. destruct H as ((H1 & H2) & H3). auto.
Qed.

(** if the verdict on an instance depends on its number only and nothing raises, the accepted
    instances are the first that pass; the loop ends if there are enough of them and never if there
    are not *)
Theorem C104_verdict : forall probe repetition n_instances n_repetitions verdict, 1 <= n_repetitions ->
  (forall i st, exists st', probe i st = (Ok (verdict i), st')) -> (forall i m st, exists n st', repetition i m st = (Ok n, st')) ->
  let passing N := filter verdict (seq 0 N) in
  (forall fuel st x, experiment probe repetition n_instances n_repetitions fuel st = Returned tt x ->
     length (passing (l_next x)) = n_instances /\ l_history x = each n_repetitions (passing (l_next x)) /\
     (0 < l_next x -> length (passing (l_next x - 1)) < n_instances)) /\
  (forall N, n_instances <= length (passing N) -> forall fuel st, N < fuel ->
     exists x, experiment probe repetition n_instances n_repetitions fuel st = Returned tt x) /\
  ((forall N, length (passing N) < n_instances) -> forall fuel st,
     exists x, experiment probe repetition n_instances n_repetitions fuel st = OutOfFuel x).
Proof.
  intros probe repetition ni nr verdict Hnr Hv Hr passing.
  assert (H : forall fuel st, match experiment probe repetition ni nr fuel st with
    | Returned _ x' => head ni nr (fun _ _ _ => True) (chosen verdict (l_next x')) x' /\ length (chosen verdict (l_next x')) = ni /\ (0 < l_next x' -> length (chosen verdict (l_next x' - 1)) < ni)
    | Raised _ _ => False
    | OutOfFuel x' => head ni nr (fun _ _ _ => True) (chosen verdict (l_next x')) x' /\ l_next x' = fuel /\ (0 < l_next x' -> length (chosen verdict (l_next x' - 1)) < ni) end).
  { intros fuel st. apply (loop_verdict probe repetition ni nr (fun _ _ _ => True) (fun _ _ _ _ _ _ => I) verdict Hv Hr Hnr fuel (mkLists [] [] [] [] 0 st)); [apply head_start|cbn; lia]. }
  split; [|split].
  - intros fuel st x E. specialize (H fuel st). rewrite E in H. destruct H as ((_ & _ & H3 & _) & H1 & H2). auto.
  - intros N HN fuel st Hf. specialize (H fuel st). destruct (experiment probe repetition ni nr fuel st) as [[] x|e x|x] eqn:E; [eauto|contradiction|].
    exfalso. destruct H as (_ & Hn & Hlow). pose proof (chosen_mono verdict N (l_next x - 1 - N)). replace (N + (l_next x - 1 - N)) with (l_next x - 1) in H by lia.
    unfold passing in HN. unfold chosen in *. lia.
  - intros HN fuel st. specialize (H fuel st). destruct (experiment probe repetition ni nr fuel st) as [[] x|e x|x]; [|contradiction|eauto].
    exfalso. destruct H as (_ & H1 & _). specialize (HN (l_next x)). unfold passing in HN. unfold chosen in H1. lia.
Qed.

(** no repetitions: nothing is tried *)
Theorem C104_no_repetitions : forall probe repetition n_instances fuel st,
  experiment probe repetition n_instances 0 (S fuel) st = Returned tt (mkLists [] [] [] [] 0 st).
Proof. intros. unfold experiment. cbn [loop]. unfold experiment_step. cbn [l_lucb length]. now rewrite Nat.mul_0_r. Qed.
End Loop.
Print Assumptions C104_returned.
Print Assumptions C104_raised.
Print Assumptions C104_verdict.
Print Assumptions C104_no_repetitions.

(** every third instance is accepted, and the results count upwards *)
Definition third (i : nat) (st : nat) : res bool * nat := (Ok (i mod 3 =? 1), st).
Definition counting (i m st : nat) : res (nat * nat * nat) * nat := (Ok (i, m, st), S st).
Definition failing (i m st : nat) : res (nat * nat * nat) * nat := if st =? 3 then (Err ValueError, st) else (Ok (i, m, st), S st).
Example C104_case :
  experiment third counting 3 2 9 0 = Returned tt (mkLists [1; 1; 4; 4; 7; 7] [0; 1; 0; 1; 0; 1] [0; 1; 2; 3; 4; 5] [1; 1; 4; 4; 7; 7] 8 6)
  /\ experiment third failing 3 2 9 0 = Raised ValueError (mkLists [1; 1; 4] [0; 1; 0] [0; 1; 2] [1; 1; 4; 4] 5 3)
  /\ (forall i st, exists st', third i st = (Ok (i mod 3 =? 1), st')) /\ (forall i m st, exists n st', counting i m st = (Ok n, st'))
  /\ 3 <= length (filter (fun i => i mod 3 =? 1) (seq 0 8))
  /\ (forall N, length (filter (fun i => i =? 4) (seq 0 N)) < 2).
Proof.
  split; [reflexivity|]. split; [reflexivity|]. split; [unfold third; eauto|]. split; [unfold counting; eauto|]. split; [cbn; lia|].
  intros N. assert (H : forall k a, length (filter (fun i => i =? 4) (seq a k)) <= if a <=? 4 then 1 else 0).
  { induction k as [|k IH]; intros a; [cbn [seq filter length]; lia|]. cbn [seq filter]. specialize (IH (S a)).
    destruct (Nat.eqb_spec a 4) as [->|Hne]; [cbn in IH |- *; lia|]. destruct (Nat.leb_spec a 4), (Nat.leb_spec (S a) 4); lia. }
  specialize (H N 0). cbn in H. lia.
Qed.

Lemma long_example_fails (e : nat) (zd vd : list nat) m limit big : (1 <= m)%nat -> (S m < length zd)%nat -> (m < length vd)%nat -> (1 <= big)%nat ->
  Forall (fun d => 1 <= d)%nat zd -> Forall (fun d => 1 <= d)%nat (tl vd) ->
  (exists d, section_5_2_cpds xreal quiet tick_rng flat zd vd m e (Some 0%Z) 0 tt = Returned d tt) ->
  section_5_2_example xreal quiet tick_rng flat big zd vd 0%Z (Fin 1) (Fin 2) (Fin 3) m limit 10 false e 0 tt = Raised IndexError tt.
Proof.
  intros Hm Lz Lv Hb Dz Dv (d & E). unfold section_5_2_example. rewrite E.
  destruct (C97_long_lists quiet tick_rng flat (fun _ _ => True) (fun m _ => m) tick_real flat_real quiet_sane quiet_regular zd vd m e (Some 0%Z) 0%nat tt d tt big E Dz Dv Hb)
    as (s & Es & Hf); [now left|]. destruct (Hf tt) as ([] & Eg).
  unfold generate_example. rewrite Es. cbn [bind]. rewrite index_lists_ok by lia. cbn [bind]. rewrite (at_ok zd 0 0) by lia. cbn [bind fst snd].
  rewrite selection_masks_ok by lia. cbn [bind]. now rewrite Eg.
Qed.
Example C103_case : real_rng tick_rng /\ real_gp flat (fun _ _ => True) (fun m _ => m) /\ sane_global quiet /\ regular quiet
  /\ length (combine back_door_sizes sample_limits) = 30 /\ nth_error (combine back_door_sizes sample_limits) 9 = Some (3, 100000%Z)
  /\ nth_error (combine back_door_sizes sample_limits) 10 = Some (4, 100000%Z) /\ nth_error (combine back_door_sizes sample_limits) 29 = Some (6, 600000%Z)
  /\ z_dims 4 = [2; 3; 3; 3; 3] /\ v_dims 4 = [0; 2; 2; 2; 2]
  /\ section_5_2_example xreal quiet tick_rng flat 3 [1; 1; 1] [0; 1; 1] 0%Z (Fin 1) (Fin 2) (Fin 3) 1 100%Z 10 false 0 0 tt = Raised IndexError tt.
Proof.
  split; [exact tick_real|]. split; [exact flat_real|]. split; [exact quiet_sane|]. split; [exact quiet_regular|]. do 6 (split; [reflexivity|]).
  apply long_example_fails; try (cbn; lia); try (repeat constructor). apply (flat_returns [1%nat] [1%nat]); repeat constructor.
Qed.

(** ** C105 *)
Open Scope R_scope.
Section Minimal.
  Context {G : Type} (w : cpd_world X G).
  Hypothesis Hw : regular w.

  Lemma amap_vec {N} (f : N -> N) l : amap f (vec l) = vec (map f l).
  Proof. unfold amap, vec. cbn [atail arows]. now rewrite !map_map. Qed.
  Lemma vmap_vec {N} (f : N -> N) l : vmap f (VArr (vec l)) = VArr (vec (map f l)).
  Proof. unfold vmap. now rewrite amap_vec. Qed.
  Lemma zos_mul a b zs : map (nmul xreal (nlit xreal a b)) (zos zs) = map (fun z => Fin (IZR a / IZR (Zpos b) * zo z)) zs.
  Proof. unfold zos. rewrite lit_x, map_map. reflexivity. Qed.

  (** the SCM can be built and sampled with any number of units: the covariates are Z and Z2, and
      Y is the noise plus a quarter of X plus a quarter of Z2 *)
Theorem C105_generate : exists s, mwe_scm xreal w = Ok s /\ forall n g, exists zs z2 xs es g',
    mwe_drawn w n g zs z2 xs es g' /\
    generate s n g = (Ok (mkED (Some (mkArr [2%nat] (map (fun j => [Fin (zo (nth j zs false)); Fin (nth j z2 0)]) (seq 0 n))))
      (Some (vec (zos xs))) (Some (vec (map (fun j => Fin (mwe_response z2 xs es j)) (seq 0 n)))) n 2), g').
  Proof.
    eexists. split; [reflexivity|]. intros n g.
    destruct (rg_binom _ Hw (repeat (1 / 3) n) g) as (zs & g1 & E1 & L1); [apply Forall_forall; intros p Hp; apply repeat_spec in Hp; lra|]. rewrite repeat_length in L1.
    destruct (rg_normal _ Hw (map (fun z => 1 / 10 * zo z) zs) (repeat 1 n) g1) as (z2 & g2 & E2 & L2);
      [apply Forall_forall; intros p Hp; apply repeat_spec in Hp; lra|rewrite map_length, repeat_length; exact L1|]. rewrite map_length, L1 in L2.
    destruct (rg_binom _ Hw (map (fun z => 1 / 2 + 1 / 10 * zo z) zs) g2) as (xs & g3 & E3 & L3);
      [apply Forall_forall; intros p Hp; apply in_map_iff in Hp as (z & <- & _); unfold zo; destruct z; lra|]. rewrite map_length, L1 in L3.
    destruct (rg_normal _ Hw (repeat 0 n) (repeat 1 n) g3) as (es & g' & E4 & L4);
      [apply Forall_forall; intros p Hp; apply repeat_spec in Hp; lra|now rewrite !repeat_length|]. rewrite repeat_length in L4.
    rewrite <- repeat_fin in E1. rewrite map_map, <- repeat_fin in E2. rewrite map_map in E3. rewrite <- !repeat_fin in E4.
    exists zs, z2, xs, es, g'. split; [exists g1, g2, g3; auto 10|].
    assert (Fz : forall ps, mwe_z xreal w n ps g = (Ok (vec (zos zs)), g1)).
    { intros ps. unfold mwe_z. rewrite !nint_x. cbn [ndiv xreal]. rewrite xdiv_fin by lra. now rewrite E1. }
    assert (Fz2 : mwe_z2 xreal w n [vec (zos zs)] g1 = (Ok (vec (map Fin z2)), g2)).
    { unfold mwe_z2, NbModel.parent, at_. cbn [nth_error bind]. rewrite vmap_vec, zos_mul. cbn [vec atail].
      rewrite !entries_vec, nint_x, map_length, L1, E2. reflexivity. }
    assert (Fx : mwe_x xreal w n [vec (zos zs)] g2 = (Ok (vec (zos xs)), g3)).
    { unfold mwe_x, NbModel.parent, at_. cbn [nth_error bind]. rewrite vmap_vec, zos_mul. cbn [vop bind]. rewrite amap_vec. cbn [vec atail].
      rewrite !entries_vec, map_map. replace (map _ zs) with (map (fun z => Fin (1 / 2 + 1 / 10 * zo z)) zs).
      2: { apply map_ext. intros z. rewrite lit_x. cbn [nadd xreal xadd]. f_equal. field. }
      now rewrite E3. }
    assert (Fy : mwe_y xreal w n [vec (map Fin z2); vec (zos xs)] g3 = (Ok (vec (map (fun j => Fin (mwe_response z2 xs es j)) (seq 0 n))), g')).
    { unfold mwe_y, NbModel.parent, at_. cbn [nth_error bind]. rewrite alen_vec, map_length, L2, !nint_x, E4. rewrite !vmap_vec, zos_mul.
      rewrite vop_vec by (now rewrite !map_length, L3). cbn [bind]. rewrite vop_vec by (rewrite map2_length', !map_length; lia).
      unfold as_sample. cbn [fst snd]. do 3 f_equal. subst n. clear - L2 L3 L4. rewrite <- L4 in *. clear L4. unfold mwe_response.
      revert z2 xs L2 L3. induction es as [|e es IH]; intros [|a z2] [|x xs] L2 L3; try discriminate; [reflexivity|].
      cbn [length seq map map2]. f_equal; [rewrite !lit_x; cbn; f_equal; field|]. injection L2 as L2. injection L3 as L3. rewrite (IH _ _ L2 L3), <- seq_shift, map_map. reflexivity. }
    unfold generate. cbn -[mwe_z mwe_z2 mwe_x mwe_y vec zos xreal IZR map]. rewrite Fz.
    cbn -[mwe_z mwe_z2 mwe_x mwe_y vec zos xreal IZR map]. rewrite Fz2.
    cbn -[mwe_z mwe_z2 mwe_x mwe_y vec zos xreal IZR map]. rewrite Fx.
    cbn -[mwe_z mwe_z2 mwe_x mwe_y vec zos xreal IZR map]. rewrite Fy.
    cbn -[mwe_z mwe_z2 mwe_x mwe_y vec zos xreal IZR map]. 

    rewrite columns_vec by (unfold zos; rewrite !map_length; lia). cbn [bind]. unfold alen, afeatures. cbn [atail arows].
    assert (Hc : map (fun t : X * X => [fst t; snd t]) (combine (zos zs) (map Fin z2)) = map (fun j => [Fin (zo (nth j zs false)); Fin (nth j z2 0)]) (seq 0 n)).
    { clear - L1 L2. subst n. revert z2 L2. induction zs as [|z zs IH]; intros [|a z2] L2; try discriminate; [reflexivity|].
      cbn [zos length seq map combine fst snd]. f_equal. injection L2 as L2. fold (zos zs). rewrite (IH _ L2), <- seq_shift, map_map. reflexivity. }
    rewrite Hc, map_length, seq_length. reflexivity.
  Qed.
End Minimal.

(** of these data, one arm is given Z alone and the other Z2 alone *)
Theorem C105_transformers : forall n (zs : list bool) (z2 : list R) e y,
  let d := mkED (Some (mkArr [2%nat] (map (fun j => [Fin (zo (nth j zs false)); Fin (nth j z2 0)]) (seq 0 n)))) e y n 2 in
  remove_fn 1 d = Ok (mkED (Some (mkArr [1%nat] (map (fun j => [Fin (zo (nth j zs false))]) (seq 0 n)))) e y n 1) /\
  remove_fn 0 d = Ok (mkED (Some (mkArr [1%nat] (map (fun j => [Fin (nth j z2 0)]) (seq 0 n)))) e y n 1).
Proof.
  intros n zs z2 e y d. subst d. unfold remove_fn. cbn [dcov atail arows dexp drsp]. split.
  - change (norm_index 2 1) with (@Ok nat 1%nat). cbn [bind Nat.sub]. unfold ed_init, alen, afeatures. cbn [atail arows].
    rewrite !map_map, map_length, seq_length. reflexivity.
  - change (norm_index 2 0) with (@Ok nat 0%nat). cbn [bind Nat.sub]. unfold ed_init, alen, afeatures. cbn [atail arows].
    rewrite !map_map, map_length, seq_length. reflexivity.
Qed.

Lemma mwe_poly E E' px f c0 c1 c2 c3 : noise E -> noise E' ->
  (forall z z2 x y, f z z2 x y = c0 z x + c1 z x * z2 + c2 z x * y + c3 z x * (z2 * y)) ->
  mwe_mean E E' px f = bern (1 / 3) (fun z => bern (px z) (fun x => let m := 1 / 10 * z in
    c0 z x + c1 z x * m + c2 z x * (x / 4 + m / 4) + c3 z x * (m * x / 4 + (m * m + 1) / 4))).
Proof.
  intros H H' Hf. unfold mwe_mean.
  assert (Ha : forall z x, E (fun e2 => E' (fun e => f z (1 / 10 * z + e2) x (e + 1 / 4 * x + 1 / 4 * (1 / 10 * z + e2)))) =
    let m := 1 / 10 * z in c0 z x + c1 z x * m + c2 z x * (x / 4 + m / 4) + c3 z x * (m * x / 4 + (m * m + 1) / 4)).
  { intros z x. set (m := 1 / 10 * z).
    rewrite (noise_quad E H (c0 z x + c1 z x * m + c2 z x * (x / 4 + m / 4) + c3 z x * (m * x / 4 + m * m / 4))
      (c1 z x + c2 z x / 4 + c3 z x * (x / 4 + m / 2)) (c3 z x / 4)); [cbn; field|].
    intros e2. rewrite (noise_affine E' H' (c0 z x + c1 z x * (m + e2) + (c2 z x + c3 z x * (m + e2)) * (x / 4 + (m + e2) / 4)) (c2 z x + c3 z x * (m + e2))); [field|].
    intros e. rewrite Hf. field. }
  unfold bern. rewrite <- !Ha. rewrite !(ns_lin E H). reflexivity.
Qed.

(** the effect of X on Y is 1/4; adjusting for Z gives it; the difference of the two group means
    does not *)
Theorem C105_law : forall E E', noise E -> noise E' ->
  mwe_mean E E' (fun _ => 1) mwe_y_of - mwe_mean E E' (fun _ => 0) mwe_y_of = 1 / 4 /\
  (forall x z, (x = 0 \/ x = 1) -> (z = 0 \/ z = 1) -> mwe_given E E' (fun z' x' => same z' z * same x' x) mwe_y_of = x / 4 + z / 40) /\
  (let adj x := mwe_mean E E' mwe_px (fun z _ _ _ => mwe_given E E' (fun z' x' => same z' z * same x' x) mwe_y_of) in
   adj 1 - adj 0 = 1 / 4) /\
  mwe_given E E' (fun _ x' => same x' 1) mwe_y_of - mwe_given E E' (fun _ x' => same x' 0) mwe_y_of = 1 / 4 + 1 / 448.
Proof.
  intros E E' H H'.
  assert (P : forall px ev, mwe_mean E E' px (fun z z2 x y => ev z x * mwe_y_of z z2 x y) =
    bern (1 / 3) (fun z => bern (px z) (fun x => ev z x * (x / 4 + z / 40)))).
  { intros px ev. rewrite (mwe_poly E E' px _ (fun _ _ => 0) (fun _ _ => 0) ev (fun _ _ => 0) H H') by (intros; unfold mwe_y_of; ring). unfold bern. field. }
  assert (Q : forall px ev, mwe_mean E E' px (fun z _ x _ => ev z x) = bern (1 / 3) (fun z => bern (px z) (fun x => ev z x))).
  { intros px ev. rewrite (mwe_poly E E' px _ ev (fun _ _ => 0) (fun _ _ => 0) (fun _ _ => 0) H H') by (intros; ring). unfold bern. field. }
  assert (C : forall x z, (x = 0 \/ x = 1) -> (z = 0 \/ z = 1) -> mwe_given E E' (fun z' x' => same z' z * same x' x) mwe_y_of = x / 4 + z / 40).
  { intros x z Hx Hz. unfold mwe_given. rewrite P, Q. unfold bern, mwe_px, same.
    destruct Hx, Hz; subst; repeat (destruct Req_EM_T; try lra); field. }
  assert (P1 : forall px, mwe_mean E E' px mwe_y_of = bern (1 / 3) (fun z => bern (px z) (fun x => x / 4 + z / 40))).
  { intros px. rewrite (mwe_poly E E' px _ (fun _ _ => 0) (fun _ _ => 0) (fun _ _ => 1) (fun _ _ => 0) H H') by (intros; unfold mwe_y_of; ring). unfold bern. field. }
  split; [rewrite !P1; unfold bern; field|]. split; [exact C|]. split.
  - cbv beta zeta. rewrite (Q mwe_px (fun z _ => mwe_given E E' (fun z' x' => same z' z * same x' 1) mwe_y_of)),
      (Q mwe_px (fun z _ => mwe_given E E' (fun z' x' => same z' z * same x' 0) mwe_y_of)).
    unfold bern. rewrite !C by auto. unfold mwe_px. field.
  - unfold mwe_given. rewrite !(P _ (fun _ x' => same x' _)), !(Q _ (fun _ x' => same x' _)). unfold bern, mwe_px, same.
    repeat (destruct Req_EM_T; try lra); field.
Qed.

(** what the text of the notebook says of the example does not hold: the mean of Y given X = x and
    Z = z is 1/2 + x/4 - z/4 for no x and z, and Z2 is not independent of the other variables *)
Theorem C105_text_refuted : forall E E', noise E -> noise E' ->
  (forall x z, (x = 0 \/ x = 1) -> (z = 0 \/ z = 1) -> mwe_given E E' (fun z' x' => same z' z * same x' x) mwe_y_of <> 1 / 2 + x / 4 - z / 4) /\
  mwe_mean E E' mwe_px (fun _ z2 _ y => z2 * y) - mwe_mean E E' mwe_px (fun _ z2 _ _ => z2) * mwe_mean E E' mwe_px mwe_y_of = 1 / 4 + 1 / 900 /\
  mwe_mean E E' mwe_px (fun z z2 _ _ => z * z2) - mwe_mean E E' mwe_px (fun z _ _ _ => z) * mwe_mean E E' mwe_px (fun _ z2 _ _ => z2) = 1 / 45.
Proof.
  intros E E' H H'. split; [|split].
  - intros x z Hx Hz. destruct (C105_law E E' H H') as (_ & C & _). rewrite C by assumption. destruct Hx, Hz; subst; lra.
  - rewrite (mwe_poly E E' mwe_px _ (fun _ _ => 0) (fun _ _ => 0) (fun _ _ => 0) (fun _ _ => 1) H H') by (intros; ring).
    rewrite (mwe_poly E E' mwe_px _ (fun _ _ => 0) (fun _ _ => 1) (fun _ _ => 0) (fun _ _ => 0) H H') by (intros; ring).
    rewrite (mwe_poly E E' mwe_px _ (fun _ _ => 0) (fun _ _ => 0) (fun _ _ => 1) (fun _ _ => 0) H H') by (intros; unfold mwe_y_of; ring).
    unfold bern, mwe_px. field.
  - rewrite (mwe_poly E E' mwe_px _ (fun _ _ => 0) (fun z _ => z) (fun _ _ => 0) (fun _ _ => 0) H H') by (intros; ring).
    rewrite (mwe_poly E E' mwe_px (fun z _ _ _ => z) (fun z _ => z) (fun _ _ => 0) (fun _ _ => 0) (fun _ _ => 0) H H') by (intros; ring).
    rewrite (mwe_poly E E' mwe_px (fun _ z2 _ _ => z2) (fun _ _ => 0) (fun _ _ => 1) (fun _ _ => 0) (fun _ _ => 0) H H') by (intros; ring).
    unfold bern, mwe_px. field.
Qed.

Example C105_case : regular quiet /\ noise (fun f => (f 1 + f (-1)) / 2) /\
  exists s, mwe_scm xreal quiet = Ok s /\ exists g, generate s 2 tt =
    (Ok (mkED (Some (mkArr [2%nat] [[Fin 1; Fin (1 / 10)]; [Fin 1; Fin (1 / 10)]])) (Some (vec [Fin 1; Fin 1])) (Some (vec [Fin (11 / 40); Fin (11 / 40)])) 2 2), g).
Proof.
  split; [exact quiet_regular|]. split.
  - constructor; intros; try field. rewrite (H 1), (H (-1)). reflexivity.
  - destruct (C105_generate quiet quiet_regular) as (s & Es & Hs). exists s. split; [exact Es|].
    destruct (Hs 2%nat tt) as (zs & z2 & xs & es & g' & (g1 & g2 & g3 & D1 & D2 & D3 & D4 & L1 & L2 & L3 & L4) & E). exists g'. rewrite E.
    assert (Hone : forall bs, length bs = 2%nat -> [Fin 1; Fin 1] = zos bs -> bs = [true; true]).
    { intros [|[] [|[] [|]]] L Eq; try discriminate; try reflexivity; exfalso; injection Eq; intros; lra. }
    cbn in D1, D2, D3, D4. injection D1 as D1. apply Hone in D1; [|exact L1]. subst zs.
    injection D3 as D3. apply Hone in D3; [|exact L3]. subst xs.
    destruct z2 as [|a [|b [|]]]; try discriminate. destruct es as [|c [|d [|]]]; try discriminate. cbn in D2, D4.
    injection D2 as A B. injection D4 as C D. subst a b c d.
    cbn [seq map nth]. unfold mwe_response. cbn [nth zo]. replace (1 / 10 * 1) with (1 / 10) by field.
    replace (0 + 1 / 4 * 1 + 1 / 4 * (1 / 10)) with (11 / 40) by field. reflexivity.
Qed.
Print Assumptions C103_more_paths_refuted.
Print Assumptions C105_generate.
Print Assumptions C105_transformers.
Print Assumptions C105_law.
Print Assumptions C105_text_refuted.
