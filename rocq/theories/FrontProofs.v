(** The front-door formula of a law and of the population of its outcomes; the data the front-door arm gets. *)
From Coq Require Import List Arith ZArith Bool String Reals Lra Lia.
From Verif Require Import PyBase Num NumOps DataModel ScmModel ScmProofs ScmProps TabModel TabSpec BanditModel ArmModel ParamModel ParamProofs ParamProofs2 ParamProofs3
  PaperModel PaperSpec PaperProofs PaperProofs2 PaperProofs3 PaperProps ScmSpec LawSpec LawProofs LawProofs2 LawProofs3 LawProofs4 LawProps
  ParamSpec ScoreSpec ScoreProofs ScoreProofs2 FrontSpec.
Import ListNotations.
Open Scope nat_scope.
Open Scope list_scope.

Section Population.
  Context {A : Type} (T : law A) (x : A -> bool) (z : A -> list R) (y : A -> R).
  Notation pop := (units_of T x z y).

  Lemma units_mean (F : list R -> bool -> R -> R) :
    rsum (map (fun a => (a_w a * F (a_z a) (a_x a) (a_y a))%R) pop) = mean T (fun o => F (z o) (x o) (y o)).
  Proof. unfold units_of. rewrite map_map. induction T as [|(o, p) l IH]; [reflexivity|]. cbn [map rsum mean fst snd a_w a_z a_x a_y] in *. now rewrite IH. Qed.
  Lemma units_integral (ev : list R -> bool -> bool) (F : list R -> R -> R) :
    integral pop (fun a => ev (a_z a) (a_x a)) (fun a => F (a_z a) (a_y a)) = mean T (fun o => if ev (z o) (x o) then F (z o) (y o) else 0%R).
  Proof.
    unfold integral, units_of. induction T as [|(o, p) l IH]; [reflexivity|]. cbn [map filter mean fst snd a_z a_x].
    destruct (ev (z o) (x o)); cbn [map rsum a_w a_z a_y]; rewrite IH; lra.
  Qed.
  Lemma units_mass (ev : list R -> bool -> bool) : mass pop (fun a => ev (a_z a) (a_x a)) = prob T (fun o => ev (z o) (x o)).
  Proof. rewrite mass_integral. exact (units_integral ev (fun _ _ => 1%R)). Qed.
  Lemma units_x b : p_x pop b = prob T (fun o => Bool.eqb (x o) b).
  Proof. exact (units_mass (fun _ c => Bool.eqb c b)). Qed.
  Lemma units_xz b o : p_xz pop b (z o) = prob T (arm_of x z b o).
  Proof. exact (units_mass (fun zz c => Bool.eqb c b && if z_eq zz (z o) then true else false)). Qed.
  Lemma units_y b o : e_y pop b (z o) = mean_given T (arm_of x z b o) y.
  Proof.
    unfold e_y, mean_given. rewrite units_xz. f_equal.
    exact (units_integral (fun zz c => Bool.eqb c b && if z_eq zz (z o) then true else false) (fun _ v => v)).
  Qed.
  Lemma units_z o p : In (o, p) T -> In (z o) (z_values pop).
  Proof. intro H. apply nodup_In. unfold units_of. rewrite map_map. apply in_map_iff. exists (o, p). now split. Qed.

  (** the front-door formula for one treatment *)
  Definition through (b : bool) (zz : list R) : R := (p_x pop true * e_y pop true zz + p_x pop false * e_y pop false zz)%R.
  Lemma front_units b : population pop ->
    front_door T (fun o => Bool.eqb (x o) b) (fun o o' => Bool.eqb (x o') (x o)) (like z) y =
    rsum (map (fun zz => (p_z_given pop b zz * through b zz)%R) (z_values pop)).
  Proof.
    intro Hpop. unfold front_door, mean_given at 1. rewrite <- units_x.
    transitivity (mean T (fun o => if Bool.eqb (x o) b then through b (z o) else 0%R) / p_x pop b)%R.
    - f_equal. apply mean_ext_in. intros o p Ho. destruct (Bool.eqb (x o) b); [|reflexivity].
      transitivity (mean T (fun o' => ((if Bool.eqb (x o') true then 1 else 0) * e_y pop true (z o) + (if Bool.eqb (x o') false then 1 else 0) * e_y pop false (z o))%R)).
      + apply mean_ext. intro o'. rewrite !units_y. destruct (x o') eqn:E; cbn [Bool.eqb]; unfold arm_of; lra.
      + rewrite mean_plus, !mean_scal_r. unfold through. now rewrite !units_x.
    - pose proof (units_integral (fun _ c => Bool.eqb c b) (fun zz _ => through b zz)) as E. cbv beta in E. rewrite <- E. clear E.
      rewrite by_z. unfold Rdiv. rewrite Rmult_comm, <- rsum_scale. apply rsum_ext. intros zz _.
      transitivity (/ p_x pop b * (p_xz pop b zz * through b zz))%R; [|unfold p_z_given, Rdiv; ring]. f_equal.
      unfold p_xz. rewrite mass_integral. unfold integral. rewrite !rsum_filter, Rmult_comm, <- rsum_scale. apply rsum_ext. intros a _.
      unfold has_x, has_z. destruct (Bool.eqb (a_x a) b); cbn [andb]; [|lra]. destruct (z_eq (a_z a) zz) as [->|]; lra.
  Qed.
  Lemma front_difference : population pop ->
    (front_door T (fun o => Bool.eqb (x o) true) (fun o o' => Bool.eqb (x o') (x o)) (like z) y
     - front_door T (fun o => Bool.eqb (x o) false) (fun o o' => Bool.eqb (x o') (x o)) (like z) y)%R = ate_frontdoor pop.
  Proof.
    intro Hpop. rewrite !(front_units _ Hpop). unfold ate_frontdoor, Rminus.
    replace (- rsum (map (fun zz => (p_z_given pop false zz * through false zz)%R) (z_values pop)))%R
      with (rsum (map (fun zz => (-1 * (p_z_given pop false zz * through false zz))%R) (z_values pop))) by (rewrite rsum_scale; lra).
    rewrite <- rsum_plus. apply rsum_ext. intros zz _. unfold through. lra.
  Qed.
End Population.

(** ** the front-door arm *)
Lemma front_conf (G : Type) big zd vd zc vc z0c m (cpds : sdict (cpd X G)) limit units latex alg g0 e g1 arm cf :
  generate_example xreal big zd vd zc vc z0c m cpds limit units latex alg g0 = (Ok e, g1) ->
  nth_error (e_arms e) 0 = Some arm -> pa_eta arm = FrontDoor cf ->
  paper_scm m cpds = Ok (e_scm e) /\ pa_mask arm = MList (seq 0 (nth 0 zd 0)) /\ fc_overlap cf = Fin (1/4) /\ fc_dim cf = nth 0 zd 0.
Proof.
  intros He Harm Hcf. apply generate_example_spec in He as (s & d0 & x & t & y & Es & Hz & Hv & _ & _ & _ & _ & ->). cbn [e_scm e_arms] in *.
  unfold paper_arms in Harm. cbn [nth_error] in Harm. injection Harm as <-. cbn [pa_mask pa_eta frontdoor_arm] in *.
  injection Hcf as <-. cbn [fc_overlap fc_dim]. repeat split; trivial.
Qed.

Lemma front_ratio (G : Type) big zd vd zc vc z0c m (cpds : sdict (cpd X G)) limit units latex alg g0 e g1 arm cf :
  generate_example xreal big zd vd zc vc z0c m cpds limit units latex alg g0 = (Ok e, g1) ->
  nth_error (e_arms e) 0 = Some arm -> pa_eta arm = FrontDoor cf -> fc_ratio cf = Fin 10.
Proof.
  intros He Harm Hcf. apply generate_example_spec in He as (s & d0 & x & t & y & _ & _ & _ & _ & _ & _ & _ & ->). cbn [e_arms] in *.
  unfold paper_arms in Harm. cbn [nth_error] in Harm. injection Harm as <-. cbn [pa_eta frontdoor_arm] in Hcf. injection Hcf as <-. cbn [fc_ratio]. cbn [nint xreal]; f_equal; lra.
Qed.

Section Arm.
  Context {W : Type} (seeds : law W) (m k : nat).
  Hypothesis Hk : 2 * m + 3 <= k.
  Context (cpds : sdict (cpd X (list W))) (s : scm X (list W)) (K : string -> list (arr X) -> law (arr X)).
  Hypothesis Hs : paper_scm m cpds = Ok s.
  Hypothesis Hd : forall v f, paper_var m v -> entry cpds v f -> draws seeds 1 f (K v).
  Context (zd vd : list nat).
  Hypothesis Hreg : regular (tapes seeds k) s 1 m zd vd.
  Context (x : list W -> bool) (z : list W -> list R) (y : list W -> R).
  Hypothesis Hmed : mediated (tapes seeds k) s x z y.

  Lemma front_data g p w : In (g, p) (tapes seeds k) -> exists d r,
    fst (generate s 1 g) = Ok d /\ select_fn (MList (seq 0 (nth 0 zd 0))) d = Ok r /\ List.length (z g) = nth 0 zd 0 /\
    of_population [mkAtom w (z g) (x g) (y g)] (nth 0 zd 0) r.
  Proof.
    intro Hin. destruct (run_ok seeds 1 m k Hk cpds s K Hs Hd zd vd Hreg g p Hin) as (d & g' & log & Hg & Hn).
    pose proof (latest_drawn 1 s g d g' log Hg) as Hl. destruct (Hreg g p Hin) as (Hdm & _).
    assert (Hd0 : has_dims zd vd m (latest log)).
    { destruct Hdm as (H0 & HZ & HV). split; [|split].
      - intros b H. apply H0. now apply Hl.
      - intros i b Hi H. apply (HZ i b Hi). now apply Hl.
      - intros i b Hi H. apply (HV i b Hi). now apply Hl. }
    destruct (z0_read m cpds s 1 g d g' log zd vd Hs Hg Hd0) as (r & c & a & Er & Ec & Ha & -> & Ee & Ey).
    apply Hl in Ha. destruct (Hmed g p Hin) as (HX & HY & HZ). rewrite HZ in Ha. injection Ha as <-.
    destruct Hdm as (H0 & _). destruct (H0 _ HZ) as (Ht & _). cbn [atail] in Ht. injection Ht as Ht.
    assert (Eg : fst (generate s 1 g) = Ok d).
    { destruct (C21_calls s 1 g) as (log' & E & _). rewrite Hg in E. now injection E as <- _ _. }
    destruct (generate s 1 g) as (rr, g2) eqn:Hg2. cbn [fst] in Eg. subst rr.
    destruct (C21_result s 1 g d g2 Hg2) as (log2 & Hlog & _ & _ & cols & x' & t & yy & _ & _ & Ht2 & Hy2 & _ & Et & Ey' & _).
    destruct (paper_scm_ok m cpds (proj1 (paper_scm_inv _ _ _ Hs))) as (s1 & E1 & _ & _ & _ & Htrt & Hrsp & _).
    rewrite Hs in E1. injection E1 as <-. rewrite Htrt in Ht2. rewrite Hrsp in Hy2.
    apply (latest_drawn 1 s g d g2 log2 Hlog) in Ht2. apply (latest_drawn 1 s g d g2 log2 Hlog) in Hy2.
    rewrite HX in Ht2. injection Ht2 as <-. rewrite HY in Hy2. injection Hy2 as <-.
    exists d, r. split; [reflexivity|]. split; [exact Er|]. split; [exact Ht|].
    unfold of_population, dataset. cbn [map a_z a_x a_y]. rewrite Ec, Ee, Ey, Et, Ey', Ht.
    assert (Hr : n_units r = 1 /\ n_features r = nth 0 zd 0).
    { destruct (labelled seeds 1 m k Hk cpds s K Hs Hd zd vd Hreg g p Hin) as (d' & g3 & xx & Hg3 & Hx & Hat & _).
      rewrite Hg2 in Hg3. injection Hg3 as <- _.
      rewrite (select_fn_list (MList (z_block zd 0)) d xx _ Hx Hat) in Er.
      - injection Er as <-. cbn [ed_init dcov] in Ec. injection Ec as E2 E3.
        cbn [ed_init n_units n_features]. rewrite E3. split; [reflexivity|]. unfold z_block. rewrite map_length || idtac. cbn. now rewrite seq_length.
      - discriminate.
      - apply Forall_forall. intros q Hq. unfold z_block, dims_layout in *. cbn [mask_list firstn list_sum fold_right] in *. apply in_seq in Hq. cbn in *. lia. }
    destruct Hr as (-> & ->). repeat (split; [reflexivity|]). constructor; [now rewrite map_length|constructor].
  Qed.
End Arm.
