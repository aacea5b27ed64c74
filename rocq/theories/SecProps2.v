(** Property C96: what the seed of the examples of Section 5 determines. *)
From Coq Require Import String List Arith ZArith Reals Bool Lia Lra.
From Verif Require Import PyBase PyLemmas Num NumLemmas NumOps DataModel ScmModel ScmProofs TabSpec TabReal ArmModel BanditModel ParamModel ParamProofs5 PaperModel PaperSpec PaperProofs PaperProofs2 PaperProofs4 ScmProps PaperProps UtilModel UtilSpec UtilProps ExampleSpec ExampleProps CpdModel CpdSpec CpdProofs CpdProps SecSpec SecProofs SecProofs2 SecProofs3 SecProofs4 SecProps.
From Verif Require Import ScmSpec.
Import ListNotations.
Open Scope string_scope.
Open Scope nat_scope.

(** ** the number of rounds allowed does not matter once the search ends *)
Section Fuel.
  Context {N G D : Type} (o : numops N) (draw : G -> D * G) (effect : D -> N).
  Lemma tau_while_more : forall fuel fuel' c tau tm g x st, tau_while o draw effect fuel c tau tm g = Returned x st ->
    fuel <= fuel' -> tau_while o draw effect fuel' c tau tm g = Returned x st.
  Proof.
    induction fuel as [|fuel IH]; intros fuel' c tau tm g x st E Hf; cbn [tau_while] in E.
    - destruct (nltb o tau tm) eqn:El; [discriminate|]. destruct fuel'; cbn [tau_while]; now rewrite El.
    - destruct fuel' as [|fuel']; [lia|]. cbn [tau_while]. destruct (nltb o tau tm); [|exact E]. destruct (draw g). apply IH; [exact E|lia].
  Qed.
  Lemma tau_selection_fuel fuel fuel' g x st x' st' : tau_selection o draw effect fuel g = Returned x st ->
    tau_selection o draw effect fuel' g = Returned x' st' -> x = x' /\ st = st'.
  Proof.
    unfold tau_selection. destruct (tau_rounds o draw effect 10 None (nint o 0) g) as [[c tm] g1]. intros E E'.
    destruct (le_lt_dec fuel fuel') as [H|H].
    - rewrite (tau_while_more _ _ _ _ _ _ _ _ E H) in E'. split; congruence.
    - rewrite (tau_while_more _ fuel _ _ _ _ _ _ E' ltac:(lia)) in E. split; congruence.
  Qed.
End Fuel.

Section C96.
  Context {N G Q : Type} (o : numops N) (w : cpd_world N G) (r : rng_world N Q).

  Lemma z0_choice_fuel fuel fuel' k q x st x' st' : z0_choice o r fuel k q = Returned x st ->
    z0_choice o r fuel' k q = Returned x' st' -> x = x' /\ st = st'.
  Proof.
    unfold z0_choice. destruct (k_muz k) as [|mz l1]; [discriminate|]. destruct (k_beta k) as [|b l2]; [discriminate|].
    destruct (z0_support r (val_entries mz) q) as [S q1].
    destruct (tau_selection _ _ _ fuel q1) as [[p|] s| |] eqn:E; try discriminate.
    destruct (tau_selection _ _ _ fuel' q1) as [[p'|] s'| |] eqn:E'; try discriminate.
    destruct (tau_selection_fuel _ _ _ _ _ _ _ _ _ _ E E') as [[= <-] <-]. intros [= <- <-] [= <- <-]. auto.
  Qed.
  Lemma section_5_1_fuel zd vd m seed ent ent' fuel fuel' d q d' q' :
    section_5_1_cpds o w r zd vd m ent (Some seed) fuel = Returned d q ->
    section_5_1_cpds o w r zd vd m ent' (Some seed) fuel' = Returned d' q' -> d = d'.
  Proof.
    unfold section_5_1_cpds. cbn [start_rng]. destruct (coefs1 o r zd vd m (rw_seed r seed)) as [[k q1]|]; [|discriminate].
    destruct (path_cpds1 _ _ _ _ _) as [d1|]; [|discriminate].
    destruct (z0_choice o r fuel k q1) as [[S p] q2| |] eqn:E; destruct (at_ zd 0) as [d0|]; try discriminate.
    destruct (z0_choice o r fuel' k q1) as [[S' p'] q2'| |] eqn:E'; try discriminate.
    destruct (z0_choice_fuel _ _ _ _ _ _ _ _ E E') as [[= <- <-] _]. congruence.
  Qed.

  (** Section 5.1: calls with the same seed return the same SCM, the same bandits and the same arms up
      to the sub-Gaussian scale, whatever the state of the global generator, the entropy of the
      system and the size of the sample behind the scale *)
Theorem C96_section_5_1 : forall big big' zd vd seed zc vc z0c m limit units latex ent ent' fuel fuel' g g' e e' g1 g1',
    section_5_1_example o w r big zd vd seed zc vc z0c m limit units latex ent fuel g = Returned e g1 ->
    section_5_1_example o w r big' zd vd seed zc vc z0c m limit units latex ent' fuel' g' = Returned e' g1' ->
    e_scm e = e_scm e' /\ e_lucb e = e_lucb e' /\ e_se e = e_se e' /\ e_uniform e = e_uniform e' /\
    map (fun a => (pa_name a, pa_eta a, pa_mask a, pa_cost a)) (e_arms e)
    = map (fun a => (pa_name a, pa_eta a, pa_mask a, pa_cost a)) (e_arms e').
  Proof.
    intros big big' zd vd seed zc vc z0c m limit units latex ent ent' fuel fuel' g g' e e' g1 g1'. unfold section_5_1_example.
    destruct (section_5_1_cpds o w r zd vd m ent (Some seed) fuel) as [d q| |] eqn:Ed; try discriminate.
    destruct (section_5_1_cpds o w r zd vd m ent' (Some seed) fuel') as [d' q'| |] eqn:Ed'; try discriminate.
    pose proof (section_5_1_fuel _ _ _ _ _ _ _ _ _ _ _ _ Ed Ed') as <-.
    destruct (generate_example o big zd vd zc vc z0c m d limit units latex FINITE_SAMPLE g) as [[x|] h] eqn:E; try discriminate.
    destruct (generate_example o big' zd vd zc vc z0c m d limit units latex FINITE_SAMPLE g') as [[x'|] h'] eqn:E'; try discriminate.
    intros [= -> ->] [= -> ->].
    apply generate_example_spec in E as (s & dd & x & t & y & Es & _ & _ & _ & _ & _ & _ & ->).
    apply generate_example_spec in E' as (s' & dd' & x' & t' & y' & Es' & _ & _ & _ & _ & _ & _ & ->).
    cbn [e_scm e_lucb e_se e_uniform e_arms]. rewrite Es in Es'. injection Es' as <-. repeat (split; [reflexivity|]).
    unfold paper_arms. cbn [map]. f_equal. rewrite !map_map. reflexivity.
  Qed.
End C96.
Print Assumptions C96_section_5_1.

(** ** Section 5.2: the strengths are drawn, but nothing depends on them *)

(** the same global generator with other values of uniform *)
Definition with_uniform {N G} (w : cpd_world N G) (u : N -> N -> G -> N * G) : cpd_world N G :=
  mkCW (cw_normal w) (cw_mvnormal w) (cw_binom w) (cw_choice w) u (cw_randint w).

Section Strength.
  Context {N G Q M : Type} (o : numops N) (w : cpd_world N G) (r : rng_world N Q) (gpr : gp N M) (u : N -> N -> G -> N * G).
  Hypothesis Hu : forall lo hi g, snd (u lo hi g) = snd (cw_uniform w lo hi g).

  Record alike (k k' : coefs N) : Prop := mkAlike {
    al_muv : k_muv k = k_muv k'; al_covv : k_covv k = k_covv k'; al_muz : k_muz k = k_muz k'; al_covz : k_covz k = k_covz k';
    al_beta : exists b l l', k_beta k = b :: l /\ k_beta k' = b :: l';
    al_last : option_map snd (k_last k) = option_map snd (k_last k') }.
  Definition alike_res (x y : res (coefs N * Q)) : Prop :=
    match x, y with Ok (k, q), Ok (k', q') => alike k k' /\ q = q' | Err e, Err e' => e = e' | _, _ => False end.

  Lemma scaled_state c c' k q : snd (scaled o r c k q) = snd (scaled o r c' k q).
  Proof. unfold scaled. now destruct (rw_std r k q). Qed.
  Lemma scaled2_state c c' a b q : snd (scaled2 o r c a b q) = snd (scaled2 o r c' a b q).
  Proof. unfold scaled2. now destruct (rw_std r (a * b) q). Qed.

  Lemma step_alike zd vd s s' i k k' q : alike k k' -> alike_res (coefs_step o r zd vd s i k q) (coefs_step o r zd vd s' i k' q).
  Proof.
    intros [A1 A2 A3 A4 (b & l & l' & B1 & B2) A6]. unfold coefs_step. destruct (at_ vd i) as [vi|]; [|reflexivity]. cbn [bind].
    destruct (scaled o r (nint o 0) vi q) as [mv q1]. destruct (at_ zd i) as [zi|]; [|reflexivity]. cbn [bind].
    destruct (scaled o r (nint o 0) zi q1) as [mz q2].
    pose proof (scaled_state s s' vi q2) as E3. destruct (scaled o r s vi q2) as [gm q3], (scaled o r s' vi q2) as [gm' q3']. cbn [snd] in E3. subst q3'.
    pose proof (scaled2_state (nmul o (nlit o 5 10) s) (nmul o (nlit o 5 10) s') vi zi q3) as E4.
    destruct (scaled2 o r (nmul o (nlit o 5 10) s) vi zi q3) as [al q4], (scaled2 o r (nmul o (nlit o 5 10) s') vi zi q3) as [al' q4']. cbn [snd] in E4. subst q4'.
    pose proof (scaled_state (nsub o (nint o 2) s) (nsub o (nint o 2) s') zi q4) as E5.
    destruct (scaled o r (nsub o (nint o 2) s) zi q4) as [bt q5], (scaled o r (nsub o (nint o 2) s') zi q4) as [bt' q5']. cbn [snd] in E5. subst q5'.
    split; [|reflexivity]. constructor; cbn; try congruence. rewrite B1, B2. exists b. do 2 eexists. split; reflexivity.
  Qed.
  Lemma end_alike zd k k' q : alike k k' -> alike_res (coefs_end o r zd k q) (coefs_end o r zd k' q).
  Proof.
    intros [A1 A2 A3 A4 (b & l & l' & B1 & B2) A6]. unfold coefs_end.
    destruct (k_last k) as [[s i]|], (k_last k') as [[s' i']|]; try discriminate; [|reflexivity]. injection A6 as <-.
    destruct (at_ zd i) as [zi|]; [|reflexivity]. cbn [bind].
    pose proof (scaled_state (nsub o (nint o 1) s) (nsub o (nint o 1) s') zi q) as E.
    destruct (scaled o r (nsub o (nint o 1) s) zi q) as [bt q1], (scaled o r (nsub o (nint o 1) s') zi q) as [bt' q1']. cbn [snd] in E. subst q1'.
    split; [|reflexivity]. constructor; cbn; try congruence. rewrite B1, B2. exists b. do 2 eexists. split; reflexivity.
  Qed.
  Lemma loop_alike zd vd l : forall k k' q g, alike k k' ->
    alike_res (fst (coefs_loop2 o w r zd vd l k q g)) (fst (coefs_loop2 o (with_uniform w u) r zd vd l k' q g))
    /\ snd (coefs_loop2 o w r zd vd l k q g) = snd (coefs_loop2 o (with_uniform w u) r zd vd l k' q g).
  Proof.
    induction l as [|i l IH]; intros k k' q g A; cbn [coefs_loop2]; [split; [split; auto|reflexivity]|].
    pose proof (Hu (s_lo o) (s_hi o) g) as E. cbn [with_uniform cw_uniform].
    destruct (cw_uniform w (s_lo o) (s_hi o) g) as [s g1], (u (s_lo o) (s_hi o) g) as [s' g1']. cbn [snd] in E. subst g1'.
    pose proof (step_alike zd vd s s' i k k' q A) as B.
    destruct (coefs_step o r zd vd s i k q) as [[k1 q1]|], (coefs_step o r zd vd s' i k' q) as [[k1' q1']|]; cbn in B; try contradiction.
    - destruct B as [B <-]. now apply IH.
    - subst. split; reflexivity.
  Qed.
  Lemma coefs2_alike zd vd m q g : alike_res (fst (coefs2 o w r zd vd m q g)) (fst (coefs2 o (with_uniform w u) r zd vd m q g))
    /\ snd (coefs2 o w r zd vd m q g) = snd (coefs2 o (with_uniform w u) r zd vd m q g).
  Proof.
    unfold coefs2. destruct (coefs_start o r zd q) as [[k q0]|] eqn:E0; [|split; reflexivity].
    assert (A : alike k k).
    { constructor; try reflexivity. unfold coefs_start in E0. destruct (at_ zd 0); [|discriminate]. cbn [bind] in E0.
      destruct (scaled _ _ _ _ q) as [mz q1]. destruct (scaled _ _ _ _ q1) as [b0 q2]. injection E0 as <- _. cbn. eauto. }
    destruct (loop_alike zd vd (seq 1 m) k k q0 g A) as [B E].
    destruct (coefs_loop2 o w r zd vd (seq 1 m) k q0 g) as [[[k1 q1]|] g1], (coefs_loop2 o (with_uniform w u) r zd vd (seq 1 m) k q0 g) as [[[k1' q1']|] g1'];
      cbn in B, E |- *; try contradiction; subst; [|split; reflexivity]. destruct B as [B <-]. split; [now apply end_alike|reflexivity].
  Qed.
  Lemma paths_alike zd vd k k' : alike k k' -> forall l d g,
    path_cpds2 o w gpr zd vd k l d g = path_cpds2 o (with_uniform w u) gpr zd vd k' l d g.
  Proof.
    intros [A1 A2 A3 A4 _ _]. induction l as [|i l IH]; intros d g; [reflexivity|]. cbn [path_cpds2]. rewrite A1, A2, A3, A4.
    destruct (do vi <- at_ vd i; do zi <- at_ zd i; Ok (vi, zi)) as [[vi zi]|]; [|reflexivity].
    change (make_rfun o (with_uniform w u) gpr 1 vi zi g) with (make_rfun o w gpr 1 vi zi g).
    destruct (make_rfun o w gpr 1 vi zi g) as [[f|] g1]; [|reflexivity].
    destruct (do mv <- at_ (k_muv k') i; _) as [[[[mv cv] mz] cz]|]; [|reflexivity]. apply IH.
  Qed.

Theorem C96_strength_unused : forall zd vd m ent seed fuel g,
    section_5_2_cpds o (with_uniform w u) r gpr zd vd m ent seed fuel g = section_5_2_cpds o w r gpr zd vd m ent seed fuel g.
  Proof.
    intros zd vd m ent seed fuel g. unfold section_5_2_cpds.
    destruct (coefs2_alike zd vd m (start_rng r ent seed) g) as [B E].
    destruct (coefs2 o w r zd vd m (start_rng r ent seed) g) as [[[k q1]|e] g1], (coefs2 o (with_uniform w u) r zd vd m (start_rng r ent seed) g) as [[[k' q1']|e'] g1'];
      cbn in B, E; try contradiction; subst; [|reflexivity]. destruct B as [B <-].
    assert (Ez : z0_choice o r fuel k' q1 = z0_choice o r fuel k q1).
    { destruct B as [_ _ A3 _ (b & l & l' & B1 & B2) _]. unfold z0_choice. now rewrite A3, B1, B2. }
    rewrite Ez. destruct (z0_choice o r fuel k q1) as [[S p] q2| |]; try reflexivity.
    change (@make_rfuns N G o (with_uniform w u) M gpr) with (@make_rfuns N G o w M gpr).
    destruct (make_rfuns o w gpr zd g1') as [[fy|] g2]; [|reflexivity]. destruct (make_rfuns o w gpr (tl vd) g2) as [[fx|] g3]; [|reflexivity].
    destruct (at_ zd 0) as [d0|]; [|reflexivity]. rewrite <- (paths_alike zd vd k k' B). reflexivity.
  Qed.
End Strength.
Print Assumptions C96_strength_unused.

(** the CPDs of Section 5.2 also depend on the state of the global generator, which no argument
    controls: one seed, two states, different values of Z1 for the same parent *)
Open Scope R_scope.
Definition counter_world : cpd_world X Z := mkCW
  (fun ms _ g => (Ok ms, g)) (fun ms _ n g => (Ok (repeat ms n), g)) (fun ps g => (Ok (map (fun _ => Fin 1) ps), g))
  (fun _ n g => (Ok (repeat 0%nat n), g)) (fun lo _ g => (lo, g)) (fun g => (g, g)).
(** a regressor that returns the last value it was fitted to *)
Definition memory : gp X (list X) := mkGp [] (fun _ _ s => Ok [Fin (IZR s)]) (fun _ _ y => (y, None)) (fun m a => Ok (repeat (last m XNaN) (alen a))).

Lemma counter_returns g : exists d q, section_5_2_cpds xreal counter_world tick_rng memory [1%nat; 1%nat] [0%nat; 1%nat] 1 0%nat (Some 0%Z) 0 g = Returned d q
  /\ exists f, entry d "Z1" f /\ forall n h x, exists y, f n [rmat 1 [[x]]] h = (Ok (rmat 1 [[y]]), h) /\ y = IZR g.
Proof.
  assert (Hk : exists k l1 l2 c1 c2 c3 c4, coefs2 xreal counter_world tick_rng [1%nat; 1%nat] [0%nat; 1%nat] 1 0%nat g = (Ok (k, 8%nat), g)
            /\ k_muz k = VArr (rvec [2/10 * 0]) :: l1 /\ k_beta k = VArr (rvec [2/10 * 1]) :: l2
            /\ at_ (k_muv k) 1 = Ok (VArr (rvec [c1])) /\ at_ (k_covv k) 1 = Ok (VArr (rmat 1 [[c2]]))
            /\ at_ (k_muz k) 1 = Ok (VArr (rvec [c3])) /\ at_ (k_covz k) 1 = Ok (VArr (rmat 1 [[c4]])) /\ c3 = 0).
  { do 7 eexists. split; [reflexivity|]. split; [reflexivity|]. split; [reflexivity|]. split; [reflexivity|]. split; [reflexivity|].
    split; [reflexivity|]. split; [reflexivity|]. lra. }
  destruct Hk as (k & l1 & l2 & c1 & c2 & c3 & c4 & Ek & Em & Eb & E1 & E2 & E3 & E4 & ->).
  destruct tick_choice as (_ & _ & _ & _ & Hch). pose proof (Hch k l1 l2 0%nat Em Eb) as Hz. clear Hch Em Eb.
  unfold section_5_2_cpds. change (start_rng tick_rng 0%nat (Some 0%Z)) with 0%nat. rewrite Ek, Hz.
  assert (Er : forall b dim, make_rfun xreal counter_world memory b dim 1 g = (Ok (1%nat, [[Fin (IZR g)]]), g)) by reflexivity.
  cbn [make_rfuns tl]. rewrite !Er. change (at_ [1%nat; 1%nat] 0) with (@Ok nat 1%nat). cbn [seq path_cpds2].
  change (at_ [0%nat; 1%nat] 1) with (@Ok nat 1%nat). change (at_ [1%nat; 1%nat] 1) with (@Ok nat 1%nat). cbn [bind].
  rewrite Er, E1, E2, E3, E4. cbn [bind]. do 2 eexists. split; [reflexivity|]. eexists. split; [apply entry_sget, sget_same|].
  intros n h x. eexists. split; [reflexivity|]. lra.
Qed.
Theorem C96_section_5_2_refuted : exists (w : cpd_world X Z) (r : rng_world X nat) (gpr : gp X (list X)) zd vd m ent seed fuel g g' d d' q q' f f' n args h,
  section_5_2_cpds xreal w r gpr zd vd m ent (Some seed) fuel g = Returned d q
  /\ section_5_2_cpds xreal w r gpr zd vd m ent (Some seed) fuel g' = Returned d' q'
  /\ entry d "Z1" f /\ entry d' "Z1" f' /\ f n args h <> f' n args h.
Proof.
  destruct (counter_returns 0%Z) as (d & q & E & f & Hf & Hv), (counter_returns 1%Z) as (d' & q' & E' & f' & Hf' & Hv').
  exists counter_world, tick_rng, memory, [1%nat; 1%nat], [0%nat; 1%nat], 1%nat, 0%nat, 0%Z, 0%nat, 0%Z, 1%Z, d, d', q, q', f, f', 1%nat, [rmat 1 [[0]]], 0%Z.
  split; [exact E|]. split; [exact E'|]. split; [exact Hf|]. split; [exact Hf'|].
  destruct (Hv 1%nat 0%Z 0) as (y & -> & ->), (Hv' 1%nat 0%Z 0) as (y' & -> & ->). intros H. injection H as H. lra.
Qed.
Print Assumptions C96_section_5_2_refuted.

Lemma tick_example big ent fuel : (1 <= big)%nat -> exists e,
  section_5_1_example xreal quiet tick_rng big [1%nat; 1%nat] [0%nat; 1%nat] 0%Z (Fin 1) (Fin 2) (Fin 3) 1 100%Z 10 false ent fuel tt = Returned e tt.
Proof.
  intros Hb. destruct tick_returns as (d & Hd). destruct (Hd ent fuel) as (q & E).
  destruct (C95_example quiet tick_rng quiet_regular tick_real big [1%nat; 1%nat] [0%nat; 1%nat] 0%Z (Fin 1) (Fin 2) (Fin 3) 1 100%Z 10 false ent fuel tt)
    as [(g' & H)|(e & [] & H & Hl)]; try (cbn; lia); [| |now exists e].
  { intros i Hi. replace i with 1%nat by lia. cbn. lia. }
  exfalso. unfold section_5_1_example in H. rewrite E in H. destruct (generate_example _ _ _ _ _ _ _ _ _ _ _ _ _ _) as [[]]; discriminate.
Qed.
Example C96_case : (exists e e',
  section_5_1_example xreal quiet tick_rng 3 [1%nat; 1%nat] [0%nat; 1%nat] 0%Z (Fin 1) (Fin 2) (Fin 3) 1 100%Z 10 false 0%nat 0 tt = Returned e tt
  /\ section_5_1_example xreal quiet tick_rng 4 [1%nat; 1%nat] [0%nat; 1%nat] 0%Z (Fin 1) (Fin 2) (Fin 3) 1 100%Z 10 false 7%nat 5 tt = Returned e' tt
  /\ e_scm e = e_scm e')
  /\ (forall lo hi g, snd ((fun _ hi g => (hi, g)) lo hi g) = snd (cw_uniform counter_world lo hi g))
  /\ exists d q, section_5_2_cpds xreal (with_uniform counter_world (fun _ hi g => (hi, g))) tick_rng memory [1%nat; 1%nat] [0%nat; 1%nat] 1 0%nat (Some 0%Z) 0 0%Z = Returned d q.
Proof.
  split; [|split; [reflexivity|]].
  - destruct (tick_example 3 0%nat 0 ltac:(lia)) as (e & E), (tick_example 4 7%nat 5 ltac:(lia)) as (e' & E'). exists e, e'. split; [exact E|]. split; [exact E'|].
    now apply (C96_section_5_1 _ _ _ _ _ _ _ _ _ _ _ _ _ _ _ _ _ _ _ _ _ _ _ _ _ E E').
  - destruct (counter_returns 0%Z) as (d & q & E & _). exists d, q. rewrite C96_strength_unused; [exact E|reflexivity].
Qed.
