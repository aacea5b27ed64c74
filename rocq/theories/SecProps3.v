(** Property C97: the example of Section 5.2 (paper_utils.py). *)
From Coq Require Import String List Arith ZArith Reals Bool Lia Lra.
From Flocq Require Import Core.
From Verif Require Import PyBase PyLemmas Num NumLemmas NumOps DataModel ScmModel ScmProofs TabSpec TabReal ArmModel BanditModel ParamModel ParamProofs5 PaperModel PaperSpec PaperProofs PaperProofs4 ScmProps PaperProps UtilModel UtilSpec UtilProps ExampleSpec ExampleProps CpdModel CpdSpec CpdProofs CpdProps SecSpec SecSpec2 SecProofs SecProofs2 SecProofs3 SecProofs4 SecProofs5 SecProofs6 SecProofs7 SecProps SecProps2.
From Verif Require Import ScmSpec.
Import ListNotations.
Open Scope string_scope.
Open Scope nat_scope.

Section Errors.
  Context {N G Q M : Type} (o : numops N) (w : cpd_world N G) (r : rng_world N Q) (gpr : gp N M).
  Lemma loop2_short zd vd k : forall a c q g, length zd <= a + k \/ length vd <= a + k -> 1 <= k ->
    exists g', coefs_loop2 o w r zd vd (seq (S a) k) c q g = (Err IndexError, g').
  Proof.
    induction k as [|k IH]; intros a c q g H Hk; [lia|]. cbn [seq coefs_loop2]. destruct (cw_uniform w (s_lo o) (s_hi o) g) as [s g1].
    destruct (coefs_step o r zd vd s (S a) c q) as [[c1 q1]|e] eqn:E.
    - destruct k as [|k].
      + rewrite step_short in E by lia. discriminate.
      + apply IH; lia.
    - exists g1. unfold coefs_step in E. destruct (le_lt_dec (length vd) (S a)) as [Hv|Hv]; [rewrite at_err in E by exact Hv; cbn [bind] in E; congruence|].
      rewrite (at_ok vd (S a) 0 Hv) in E. cbn [bind] in E. destruct (scaled _ _ _ _ q) as [mv q1].
      destruct (le_lt_dec (length zd) (S a)) as [Hz|Hz]; [rewrite at_err in E by exact Hz; cbn [bind] in E; congruence|].
      rewrite (at_ok zd (S a) 0 Hz) in E. cbn [bind] in E. destruct (scaled _ _ _ _ q1) as [mz q2], (scaled _ _ _ _ q2) as [gm q3], (scaled2 _ _ _ _ _ q3) as [al q4], (scaled _ _ _ _ q4) as [bt q5]. discriminate.
  Qed.
  (** which calls raise before anything random is fitted: those that raise in Section 5.1 *)
Theorem C97_errors : forall zd vd m ent seed fuel g,
    (zd = [] \/ (1 <= m /\ (List.length zd <= m \/ List.length vd <= m)) ->
       exists g', section_5_2_cpds o w r gpr zd vd m ent seed fuel g = Raised IndexError g')
    /\ (zd <> [] -> m = 0 -> exists g', section_5_2_cpds o w r gpr zd vd m ent seed fuel g = Raised NameError g').
  Proof.
    intros zd vd m ent seed fuel g. unfold section_5_2_cpds, coefs2. destruct zd as [|d0 zd].
    - split; [intros _; eexists; reflexivity|congruence].
    - destruct (start_sized o r (d0 :: zd) (start_rng r ent seed)) as (k & q1 & E & _ & Hl); [discriminate|]. rewrite E. split.
      + intros [H|[Hm H]]; [discriminate|]. destruct (loop2_short (d0 :: zd) vd m 0 k q1 g H Hm) as (g' & E'). rewrite E'. eauto.
      + intros _ ->. cbn [seq coefs_loop2]. unfold coefs_end. rewrite Hl. eauto.
  Qed.
End Errors.
Print Assumptions C97_errors.

Open Scope R_scope.
Section C97.
  Context {G Q M : Type} (w : cpd_world X G) (r : rng_world X Q) (gpr : gp X M) (fitted : nat -> M -> Prop) (value : M -> list R -> R).
  Hypothesis Hr : real_rng r.
  Hypothesis Hg : real_gp gpr fitted value.
  Hypothesis Hs : sane_global w.

  (** the CPDs are those of an additive structural model, one of whose functions serves all the
      components of a Z_i *)
Theorem C97_structural : forall zd vd m ent seed fuel g, (1 <= m)%nat -> length zd = S m -> length vd = S m ->
    Forall (fun d => (1 <= d)%nat) zd -> Forall (fun d => (1 <= d)%nat) (tl vd) ->
    (exists g', section_5_2_cpds xreal w r gpr zd vd m ent seed fuel g = OutOfFuel g')
    \/ exists d g', section_5_2_cpds xreal w r gpr zd vd m ent seed fuel g = Returned d g'
         /\ (forall v, paper_var m v -> exists f, entry d v f) /\ exists L, nlaw_fits zd L /\ nfollows w zd vd m L d.
  Proof. exact (nfollows_of w r gpr fitted value Hr Hg Hs). Qed.

  Hypothesis Hw : regular w.

  (** every call of generate with at least one unit succeeds *)
Theorem C97_generate : forall zd vd m ent seed fuel g0 d g1 n,
    section_5_2_cpds xreal w r gpr zd vd m ent seed fuel g0 = Returned d g1 ->
    length zd = S m -> length vd = S m -> Forall (fun d => (1 <= d)%nat) zd -> Forall (fun d => (1 <= d)%nat) (tl vd) -> (1 <= n)%nat ->
    exists s, paper_scm m d = Ok s /\ forall g, exists ps ts ys g' log,
      let data := ed_init (Some (features n ps)) (Some (vec (zos ts))) (Some (rvec ys)) in
      generate s n g = (Ok data, g') /\ generate (logging s) n (g, []) = (Ok data, (g', log))
      /\ (forall v a, latest log v a -> sample_type zd vd m n v a)
      /\ samples_of n ps /\ map fst ps = nth 0 zd 0%nat :: flat_map (fun i => [nth i vd 0%nat; nth i zd 0%nat]) (seq 1 m)
      /\ length ts = n /\ length ys = n.
  Proof.
    intros zd vd m ent seed fuel g0 d g1 n E Lz Lv Dz Dv Hn.
    assert (Hm : (1 <= m)%nat).
    { destruct m; [|lia]. destruct (C97_errors xreal w r gpr zd vd 0 ent seed fuel g0) as [_ H]. destruct H as (g' & H); [intros ->; discriminate|reflexivity|]. congruence. }
    destruct (section_5_2_shape w r gpr fitted value Hr Hg Hs zd vd m ent seed fuel g0 ltac:(lia) ltac:(lia) Dz Dv)
      as [(g' & E')|(S & p0 & p1 & fy & fx & h & d' & g' & E' & HS & D0 & D1 & Fy & Fx & HX & HY & HZ & HP)]; rewrite E in E'; [discriminate|].
    injection E' as <- <-.
    assert (Hent : forall v, paper_var m v -> exists f, entry d v f).
    { intros v Hv. destruct Hv as [| | |i Hi|i Hi]; eexists; apply entry_sget; [exact HX|exact HY|exact HZ|apply (HP i Hi)|apply (HP i Hi)]. }
    destruct (paper_scm_ok m d Hent) as (s & Es & Hc & Evs & Ecov & Etr & Ers & _). exists s. split; [exact Es|]. intros g.
    assert (Hstep : forall v ps f args g, In v (s_vars s) -> entry (s_parents s) v ps -> entry (s_cpds s) v f ->
              Forall2 (sample_type zd vd m n) ps args -> exists a g', f n args g = (Ok a, g') /\ sample_type zd vd m n v a).
    { intros v ps f args g2 Hv Hps Hf HF.
      destruct (step52 w gpr fitted value Hw Hg zd vd m n S p0 p1 fy fx h d ltac:(lia) ltac:(lia) Dz Dv Hn HS D0 D1 Fy Fx HX HY HZ HP s Es v ps f args g2 Hv Hps Hf HF)
        as [([[_ H]|[_ H]] & _)|(_ & H)]; [lia|lia|exact H]. }
    destruct (generate_logged s n (sample_type zd vd m n) Hc (paper_topological m d s Es) Hstep g) as (cols & x & t & y & g' & log & Eg & Hlog & HF & Ex & Pt & Py).
    { intros cols HF. rewrite Ecov in HF. destruct (layout_args zd vd m n cols HF) as (ps & -> & Hps & Ef).
      exists (features n ps). apply column_stack_samples; [intros ->; discriminate|exact Hps]. }
    rewrite Ecov in HF. destruct (layout_args zd vd m n cols HF) as (ps & -> & Hps & Ef).
    rewrite (column_stack_samples n ps) in Ex; [|intros ->; discriminate|exact Hps]. injection Ex as <-.
    rewrite Etr in Pt. rewrite Ers in Py. destruct (ST_X zd vd m n t Pt) as (ts & Ht & ->), (ST_Y zd vd m n y Py) as (ys & Hy & ->).
    exists ps, ts, ys, g', log. split; [|split; [exact Eg|auto 10]].
    destruct (C21_calls s n g) as (log' & El & _). rewrite Eg in El. destruct (generate s n g) as [rr g2]. cbn [fst snd] in El. congruence.
  Qed.

  (** get_section_5_2_example never raises for sensible dimensions *)
Theorem C97_example : forall big zd vd seed zc vc z0c m limit units latex ent fuel g,
    (1 <= m)%nat -> length zd = S m -> length vd = S m -> Forall (fun d => (1 <= d)%nat) zd -> Forall (fun d => (1 <= d)%nat) (tl vd) -> (1 <= big)%nat ->
    (exists g', section_5_2_example xreal w r gpr big zd vd seed zc vc z0c m limit units latex ent fuel g = OutOfFuel g')
    \/ exists e g', section_5_2_example xreal w r gpr big zd vd seed zc vc z0c m limit units latex ent fuel g = Returned e g'
         /\ length (e_arms e) = S (2 ^ m).
  Proof.
    intros big zd vd seed zc vc z0c m limit units latex ent fuel g Hm Lz Lv Dz Dv Hb. unfold section_5_2_example.
    destruct (C97_structural zd vd m ent (Some seed) fuel g Hm Lz Lv Dz Dv) as [(g' & E)|(d & g1 & E & Hent & _)]; rewrite E; [left; eauto|right].
    destruct (C97_generate zd vd m ent (Some seed) fuel g d g1 big E Lz Lv Dz Dv Hb) as (s & Es & H). destruct (H g1) as (ps & ts & ys & g' & log & Eg & _).
    destruct (proj2 (C81_succeeds_iff X G xreal big zd vd zc vc z0c m d limit units latex CLT g1)) as (e & g2 & Ee).
    { split; [exact Hent|]. split; [lia|]. split; [lia|]. eauto. }
    rewrite Ee. exists e, g2. split; [reflexivity|]. eapply C81_configuration. exact Ee.
  Qed.

  (** lists with more than M+1 entries, harmless in Section 5.1, give CPDs that cannot be sampled:
      the additional functions have no parent *)
Theorem C97_long_lists : forall zd vd m ent seed fuel g0 d g1 n,
    section_5_2_cpds xreal w r gpr zd vd m ent seed fuel g0 = Returned d g1 ->
    Forall (fun d => (1 <= d)%nat) zd -> Forall (fun d => (1 <= d)%nat) (tl vd) -> (1 <= n)%nat ->
    (S m < length zd)%nat \/ (S m < length vd)%nat ->
    exists s, paper_scm m d = Ok s /\ forall g, exists g', generate s n g = (Err IndexError, g').
  Proof.
    intros zd vd m ent seed fuel g0 d g1 n E Dz Dv Hn Hlong.
    destruct (C97_errors xreal w r gpr zd vd m ent seed fuel g0) as [He1 He2].
    assert (Hz0 : zd <> []) by (intros ->; destruct He1 as (g' & H); [now left|congruence]).
    assert (Hm : (1 <= m)%nat) by (destruct m; [destruct (He2 Hz0 eq_refl) as (g' & H); congruence|lia]).
    assert (Hlen : (m < length zd)%nat /\ (m < length vd)%nat).
    { destruct (le_lt_dec (length zd) m) as [H|H]; [destruct He1 as (g' & H'); [right; split; [exact Hm|now left]|congruence]|].
      destruct (le_lt_dec (length vd) m) as [H'|H']; [destruct He1 as (g' & H''); [right; split; [exact Hm|now right]|congruence]|]. auto. }
    destruct (section_5_2_shape w r gpr fitted value Hr Hg Hs zd vd m ent seed fuel g0 ltac:(lia) ltac:(lia) Dz Dv)
      as [(g' & E')|(S & p0 & p1 & fy & fx & h & d' & g' & E' & HS & D0 & D1 & Fy & Fx & HX & HY & HZ & HP)]; rewrite E in E'; [discriminate|].
    injection E' as <- <-.
    assert (Hent : forall v, paper_var m v -> exists f, entry d v f).
    { intros v Hv. destruct Hv as [| | |i Hi|i Hi]; eexists; apply entry_sget; [exact HX|exact HY|exact HZ|apply (HP i Hi)|apply (HP i Hi)]. }
    destruct (paper_scm_ok m d Hent) as (s & Es & Hc & Evs & _). exists s. split; [exact Es|]. intros g.
    apply (generate_fails s n (sample_type zd vd m n) (long zd vd m) IndexError Hc (paper_topological m d s Es)).
    - exact (step52 w gpr fitted value Hw Hg zd vd m n S p0 p1 fy fx h d ltac:(lia) ltac:(lia) Dz Dv Hn HS D0 D1 Fy Fx HX HY HZ HP s Es).
    - rewrite Evs. destruct Hlong as [H|H]; [exists "Y"|exists "X"]; (split; [apply paper_vars_in; constructor|]); [right|left]; auto.
  Qed.
End C97.
Print Assumptions C97_structural.
Print Assumptions C97_generate.
Print Assumptions C97_example.
Print Assumptions C97_long_lists.

(** a regressor that remembers one value, and a run with it *)
Definition flat : gp X R := mkGp 0 (fun _ x sd => Ok (map (fun _ => Fin (IZR sd)) x))
  (fun _ _ y => (match y with Fin v :: _ => v | _ => 0 end, None)) (fun m a => Ok (map (fun _ => Fin m) (arows a))).
Lemma flat_real : real_gp flat (fun _ _ => True) (fun m _ => m).
Proof.
  constructor.
  - intros pts n d sd _ _ [Hl _] _. exists (map (fun _ => IZR sd) pts). cbn [flat gp_sample]. rewrite !map_map, map_length. auto.
  - intros pts n d y _ _ _ _. cbn [flat gp_fit]. eauto.
  - intros m n d rows _ _ _. cbn [flat gp_predict rmat arows]. now rewrite !map_map.
Qed.
Lemma quiet_sane : sane_global quiet.
Proof. constructor; [|cbn; lia]. intros lo hi g H. exists lo, g. cbn. split; [reflexivity|lra]. Qed.
Lemma flat_returns (zd' vd' : list nat) :
  Forall (fun d => (1 <= d)%nat) (1%nat :: 1%nat :: zd') -> Forall (fun d => (1 <= d)%nat) (1%nat :: vd') ->
  exists d, section_5_2_cpds xreal quiet tick_rng flat (1%nat :: 1%nat :: zd') (0%nat :: 1%nat :: vd') 1 0%nat (Some 0%Z) 0 tt = Returned d tt.
Proof.
  intros Dz Dv.
  destruct (section_5_2_shape quiet tick_rng flat (fun _ _ => True) (fun m _ => m) tick_real flat_real quiet_sane (1%nat :: 1%nat :: zd') (0%nat :: 1%nat :: vd') 1 0%nat (Some 0%Z) 0 tt)
    as [(g' & E)|(S & p0 & p1 & fy & fx & h & d & [] & E & _)]; try assumption; try (cbn; lia); [|eauto].
  exfalso. revert E. unfold section_5_2_cpds. change (start_rng tick_rng 0%nat (Some 0%Z)) with 0%nat.
  assert (Hk : exists k l1 l2, coefs2 xreal quiet tick_rng (1%nat :: 1%nat :: zd') (0%nat :: 1%nat :: vd') 1 0%nat tt = (Ok (k, 8%nat), tt)
            /\ k_muz k = VArr (rvec [2/10 * 0]) :: l1 /\ k_beta k = VArr (rvec [2/10 * 1]) :: l2).
  { do 3 eexists. split; [reflexivity|]. split; reflexivity. }
  destruct Hk as (k & l1 & l2 & Ek & Em & Eb). rewrite Ek. destruct tick_choice as (_ & _ & _ & _ & Hch). rewrite (Hch k l1 l2 0%nat Em Eb).
  destruct (make_rfuns _ _ _ _ _) as [[fy|] g2]; [|discriminate]. destruct (make_rfuns _ _ _ _ _) as [[fx|] g3]; [|discriminate].
  destruct (at_ _ _); [|discriminate]. destruct (path_cpds2 _ _ _ _ _ _ _ _ _) as [[d|] g4]; discriminate.
Qed.
Example C97_case : real_gp flat (fun _ _ => True) (fun m _ => m) /\ sane_global quiet /\ regular quiet /\ real_rng tick_rng
  /\ (exists e, section_5_2_example xreal quiet tick_rng flat 3 [1%nat; 1%nat] [0%nat; 1%nat] 0%Z (Fin 1) (Fin 2) (Fin 3) 1 100%Z 10 false 0%nat 0 tt = Returned e tt)
  /\ exists d, section_5_2_cpds xreal quiet tick_rng flat [1%nat; 1%nat; 1%nat] [0%nat; 1%nat] 1 0%nat (Some 0%Z) 0 tt = Returned d tt.
Proof.
  split; [exact flat_real|]. split; [exact quiet_sane|]. split; [exact quiet_regular|]. split; [exact tick_real|]. split.
  - destruct (C97_example quiet tick_rng flat (fun _ _ => True) (fun m _ => m) tick_real flat_real quiet_sane quiet_regular
                3 [1%nat; 1%nat] [0%nat; 1%nat] 0%Z (Fin 1) (Fin 2) (Fin 3) 1 100%Z 10 false 0%nat 0 tt) as [([] & H)|(e & [] & H & _)];
      try reflexivity; try (repeat constructor); try lia; [|eauto].
    exfalso. destruct (flat_returns [] []) as (d & E); try (repeat constructor).
    unfold section_5_2_example in H. rewrite E in H. destruct (generate_example _ _ _ _ _ _ _ _ _ _ _ _ _ _) as [[]]; discriminate.
  - apply (flat_returns [1%nat] []); repeat constructor.
Qed.
