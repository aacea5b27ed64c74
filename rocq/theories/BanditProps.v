(** Property theorems C49-C67, C69, C70 (bandit algorithms). C68 needs the arms and is in
    ArmProps.v. *)
From Coq Require Import List Arith ZArith Lia Bool Reals Lra.
From Flocq Require Import Core BinarySingleNaN.
From Verif Require Import PyBase PyLemmas Num NumLemmas DataModel DataSpec DataProofs2 BanditModel BanditSpec
  BanditProofs1 BanditProofs2 BanditProofs3 BanditProofs4 BanditProofs5 BanditProofs6 BanditProofs7.
Import ListNotations.
Open Scope nat_scope.

(** ** concrete bandits for the examples: arms that follow a script of (lcb, ucb, var) *)
Record script := mkScript { sc_todo : list (F * F * F); sc_cur : option (F * F * F); sc_units : nat }.
Definition script_ops : arm_ops script (list nat) nat :=
  mkArmOps script (list nat) nat
    (fun _ => f_of_Z 1)
    (fun a => match sc_cur a with Some (l, u, _) => (Some l, Some u) | None => (None, None) end)
    (fun a => match sc_cur a with Some (_, _, v) => Some v | None => None end)
    sc_units
    (fun a d _ g => match sc_todo a with
                    | x :: rest => ((mkScript rest (Some x) (sc_units a + length d), g), None)
                    | [] => ((mkScript [] (sc_cur a) (sc_units a + length d), g), None)
                    end)
    (fun a => mkScript [] None 0).
(** data are lists of numbers; choices take the first element *)
Definition toy_world : world (list nat) nat :=
  mkWorld (list nat) nat
    (fun g n => (Ok (repeat g n), S g))
    (fun d a b => Ok (firstn (b - a) (skipn a d)))
    (fun g l => (hd 0 l, g))
    (fun g n => ((0, 1), g)).
Definition ft (l u v : Z) : F * F * F := (f_of_Z l, f_of_Z u, f_of_Z v).
Definition arm_of (l : list (F * F * F)) : script := mkScript l None 0.
Definition cfg_of (z : Z) (u : nat) : config := mkConfig (flit 5 100) f0 (Some (flit 5 100)) (LInt z) u.
Definition summary {A G} (o : outcome (bstate (A := A) (G := G)) (list nat)) :=
  match o with Returned b s => Some (b, b_cum s, b_smp s) | _ => None end.
(** two arms that separate in the second round *)
Definition two : list script := [arm_of [ft 0 9 5; ft 1 3 2]; arm_of [ft 0 9 6; ft 4 8 6]].
(** two arms that never separate *)
Definition tie : list script := [arm_of [ft 0 9 5]; arm_of [ft 0 9 6]].
Example toy_fair : fair_choice toy_world.
Proof. split; [intros g [|x l] H; simpl; [contradiction|auto]|]. simpl. intros. lia. Qed.
Example cfg_tol : forall z u, not_negative (c_error_tol (cfg_of z u)).
Proof. intros. right. right. split; [reflexivity|]. simpl. lra. Qed.

(** ** C49 *)
Theorem C49_bandit_init : forall p tol c lim u cfg,
  bandit_init p tol c lim u = Ok cfg <->
  proper_prob p /\ not_negative tol /\ limits_ok c lim /\ cfg = mkConfig p tol c lim u.
Proof. exact bandit_init_ok. Qed.
Print Assumptions C49_bandit_init.

Theorem C49_bandit_init_errors : forall p tol c lim u e,
  bandit_init p tol c lim u = Err e ->
  (e = TypeError <-> c = None /\ lim = LNone /\ proper_prob p /\ not_negative tol) /\
  (e <> TypeError -> e = ValueError).
Proof.
  intros p tol c lim u e H. apply bandit_init_err in H. subst e.
  destruct c as [c|], lim; try (split; [split; [discriminate|intros (H1 & H2 & _); discriminate]|reflexivity]).
  rewrite <- proper_prob_spec, <- not_negative_spec.
  destruct (fltb f0 p && fltb p (f_of_Z 1)), (fltb tol f0); cbn [andb negb]; (split; [|congruence]); split;
    try discriminate; try (intros (_ & _ & H1 & H2); discriminate); auto.
Qed.
Print Assumptions C49_bandit_init_errors.

Theorem C49_defaults : lucb_default_init = Err TypeError /\ se_default_init = Err TypeError /\
  exists cfg, uniform_default_init = Ok cfg /\ c_limit cfg = LInf.
Proof. split; [reflexivity|]. split; [reflexivity|]. eexists. split; reflexivity. Qed.
Print Assumptions C49_defaults.

Example C49_case : bandit_init (flit 1 10) fnan None (LInt 100) 5 = Ok (mkConfig (flit 1 10) fnan None (LInt 100) 5) /\
  bandit_init (flit 1 10) f0 None LInf 5 = Err ValueError /\ bandit_init (f_of_Z 1) f0 None (LInt 3) 5 = Err ValueError.
Proof. repeat split. Qed.

Section Statements.
Context {A D G : Type}.
Implicit Types (ops : arm_ops A D G) (w : world D G) (arms : list A) (s : bstate (A := A) (G := G)).

(** ** C50: accounting of Uniform runs. The logged run is the same run with every arm
    additionally remembering the (data, delta) pairs it was updated with. *)
Theorem C50_uniform_accounting : forall ops w cfg fuel all arms g best s,
  run Uniform ops w cfg fuel all arms g = Returned best s ->
  let K := length arms in
  let R := length (b_cum s) in
  let u := c_units cfg in
  1 <= R /\
  (forall t, t < R -> nth_error (b_cum s) t = Some (S t * (K * u))) /\
  (forall j t, j < K -> t < R -> recorded_samples s j t = Some u /\ exists r, recorded s j t = Some r) /\
  exists ls batches,
    run Uniform (logged ops) w cfg fuel all (with_log arms) g = Returned best ls /\ erase ls = s /\
    length batches = R /\ length (b_arms ls) = K /\
    forall x, In x (b_arms ls) -> snd x = map (fun b => (b, fdiv (c_error_prob cfg) (f_of_nat K))) batches.
Proof.
  intros ops w cfg fuel all arms g best s Hr. cbv zeta.
  pose proof (run_uniform_acc ops w cfg fuel all arms g) as H. rewrite Hr in H.
  destruct H as ((Hsh & _ & Hc & Hm) & H1 & _).
  split; [exact H1|]. split; [exact Hc|]. split.
  - intros j t Hj Ht. unfold recorded_samples, recorded.
    destruct (nth_error (b_smp s) j) as [h|] eqn:E; [|apply nth_error_None in E; rewrite (sh_smp _ _ _ Hsh) in E; lia].
    rewrite (Hm _ _ E). split; [apply nth_error_repeat; exact Ht|].
    destruct (nth_error (b_hist s) j) as [h'|] eqn:E'; [|apply nth_error_None in E'; rewrite (sh_hist _ _ _ Hsh) in E'; lia].
    pose proof (sh_hlen _ _ _ Hsh) as Hf. rewrite Forall_forall in Hf. specialize (Hf h' (nth_error_In _ _ E')).
    destruct (nth_error h' t) as [r|] eqn:E2; [eauto|]. apply nth_error_None in E2. lia.
  - pose proof (run_logged ops w cfg Uniform fuel all arms g) as HL. rewrite Hr in HL.
    pose proof (run_uniform_fed ops w cfg fuel all arms g) as HF.
    pose proof (run_shape (logged ops) w cfg Uniform fuel all (with_log arms) g) as HS.
    destruct (run Uniform (logged ops) w cfg fuel all (with_log arms) g) as [b ls|e ls|ls]; try discriminate.
    simpl in HL. injection HL as -> ->. destruct HF as (bs & Hb & Hx).
    exists ls, bs. split; [reflexivity|]. split; [reflexivity|]. split; [exact Hb|]. split; [|exact Hx].
    rewrite (sh_arms _ _ _ HS). unfold with_log. apply map_length.
Qed.

(** ** C51 *)
Theorem C51_uniform_termination : forall ops w cfg z fuel all arms g,
  c_limit cfg = LInt z -> 0 < length arms -> 0 < c_units cfg ->
  Z.to_nat z / (length arms * c_units cfg) + 1 <= fuel ->
  terminated (run Uniform ops w cfg fuel all arms g).
Proof. intros ops w cfg z fuel all arms g Hz H1 H2 H3. eapply uniform_terminates; eauto. lia. Qed.

Theorem C51_uniform_overshoot : forall ops w cfg z fuel all arms g best s,
  c_limit cfg = LInt z -> 0 < length arms -> 0 < c_units cfg ->
  run Uniform ops w cfg fuel all arms g = Returned best s ->
  length (b_cum s) <= Z.to_nat z / (length arms * c_units cfg) + 1 /\
  forall t c, nth_error (b_cum s) t = Some c -> c <= Z.to_nat z + length arms * c_units cfg.
Proof.
  intros ops w cfg z fuel all arms g best s Hz H1 H2 Hr.
  destruct (uniform_rounds ops w cfg z fuel all arms g best s Hz H1 H2 Hr) as [Ha Hb]. split; [exact Ha|].
  pose proof (run_uniform_acc ops w cfg fuel all arms g) as H. rewrite Hr in H. destruct H as ((_ & Ht & Hc & _) & _ & _).
  intros t c Hn. assert (t < length (b_cum s)) by (apply nth_error_Some; congruence).
  rewrite (Hc t H) in Hn. injection Hn as <-. rewrite Ht in Hb. nia.
Qed.

(** ** C52 *)
Theorem C52_no_limit_no_return : forall ops w cfg fuel all arms g,
  c_limit cfg = LInf -> arms <> [] ->
  (forall g n, exists d g', w_generate w g n = (Ok d, g')) ->
  (forall d a b, exists d', w_slice w d a b = Ok d') ->
  (forall a d delta g, exists a' g' l v, a_update ops a d delta g = ((a', g'), None) /\
     a_ci ops a' = (Some l, Some finf) /\ a_var ops a' = Some v /\ fisinf (fmul (a_cost ops a') finf) = true) ->
  ~ terminated (run Uniform ops w cfg fuel all arms g).
Proof.
  intros ops w cfg fuel all arms g H1 H2 H3 H4 H5.
  destruct (uniform_forever ops w cfg all arms g fuel H1 H2 H3 H4 H5) as (s & ->). simpl. tauto.
Qed.

(** ** C53 *)
Theorem C53_confidence_stop : forall alg ops w cfg fuel all arms g best s,
  alg = Uniform \/ alg = LUCB -> not_negative (c_error_tol cfg) ->
  run alg ops w cfg fuel all arms g = Returned best s -> ~ exceeds (b_total s) (c_limit cfg) ->
  exists rs i, reported ops s rs /\ best = [i] /\ separated (c_error_tol cfg) rs i /\
    (Forall num (map r_var rs) -> incumbent rs i).
Proof.
  intros alg ops w cfg fuel all arms g best s Halg Ht Hr Hne.
  assert (exists rs i, reported ops s rs /\ best = [i] /\ separated (c_error_tol cfg) rs i /\ np_argmin (map r_var rs) = Ok i) as (rs & i & H1 & H2 & H3 & H4).
  { destruct Halg as [->| ->].
    - destruct (uniform_exit ops w cfg fuel all arms g best s Ht Hr) as (rs & Hrs & [[H _]|(_ & i & H)]); [contradiction|]. exists rs, i. tauto.
    - destruct (lucb_exit ops w cfg fuel all arms g best s Ht Hr) as (rs & Hrs & [[H _]|(i & H)]); [contradiction|]. exists rs, i. tauto. }
  exists rs, i. split; [exact H1|]. split; [exact H2|]. split; [exact H3|].
  intros Hn. destruct (np_argmin_spec _ _ Hn H4) as (m & Hm & Hall).
  unfold incumbent. pose proof (np_argmin_bound _ _ H4) as Hb. rewrite map_length in Hb. split; [exact Hb|].
  intros k Hk. unfold rd.
  assert (E : m = r_var (nth i rs (mkReading fnan fnan fnan))).
  { rewrite nth_error_map in Hm. rewrite (nth_error_nth' rs (mkReading fnan fnan fnan) Hb) in Hm. simpl in Hm. congruence. }
  rewrite <- E. apply Hall. apply in_map, nth_In, Hk.
Qed.

Theorem C53_confidence_stop_sound : forall tol rs i (v : nat -> R),
  separated tol rs i ->
  (forall j r, nth_error rs j = Some r -> in_interval r (v j)) ->
  forall j, j < length rs -> j <> i -> (v i + B2R tol < v j)%R.
Proof. exact separated_sound. Qed.

(** ** C54 *)
Theorem C54_limit_stop : forall alg ops w cfg fuel all arms g best s,
  not_negative (c_error_tol cfg) ->
  run alg ops w cfg fuel all arms g = Returned best s ->
  (exists rs, reported ops s rs /\ exceeds (b_total s) (c_limit cfg) /\ smallest_variance (map r_var rs) best) \/
  (alg <> SE /\ exists rs i, reported ops s rs /\ best = [i] /\ separated (c_error_tol cfg) rs i) \/
  (alg = SE /\ best = b_cand s /\ length best <= 1).
Proof.
  intros alg ops w cfg fuel all arms g best s Ht Hr. destruct alg.
  - destruct (uniform_exit ops w cfg fuel all arms g best s Ht Hr) as (rs & Hrs & [[H1 H2]|(H1 & i & H2)]); [left; eauto|].
    right. left. split; [discriminate|]. exists rs, i. tauto.
  - destruct (lucb_exit ops w cfg fuel all arms g best s Ht Hr) as (rs & Hrs & [[H1 H2]|(i & H2)]); [left; eauto|].
    right. left. split; [discriminate|]. exists rs, i. tauto.
  - destruct (se_exit ops w cfg fuel all arms g best s Hr) as [H|(_ & H1 & rs & H2 & H3)]; [right; right; auto|]. left. eauto.
Qed.

Theorem C54_smallest_nonempty : forall vs best, Forall num vs -> vs <> [] -> smallest_variance vs best ->
  best <> [] /\ forall i, In i best <-> i < length vs /\ forall v, In v vs -> (fkey (nth i vs fnan) <= fkey v)%R.
Proof. exact argmins_nonempty. Qed.

(** ** C55 *)
Theorem C55_histories : forall alg ops w cfg fuel all arms g best s,
  run alg ops w cfg fuel all arms g = Returned best s ->
  length (b_arms s) = length arms /\ length (b_hist s) = length arms /\ length (b_smp s) = length arms /\
  (forall h, In h (b_hist s) -> length h = length (b_cum s)) /\
  (forall h, In h (b_smp s) -> length h = length (b_cum s)) /\
  (b_cum s <> [] -> forall j a, nth_error (b_arms s) j = Some a ->
     exists r, recorded_last s j = Some r /\ reports ops a r).
Proof.
  intros alg ops w cfg fuel all arms g best s Hr.
  pose proof (run_shape ops w cfg alg fuel all arms g) as H. rewrite Hr in H. destruct H as [H1 H2 H3 H4 H5 H6].
  rewrite Forall_forall in H4, H5. do 5 (split; [assumption|]).
  intros Hne j a Ha. destruct H6 as [E|(rs & Hc & Hl)]; [contradiction|].
  destruct (collect_nth ops _ _ _ _ Hc Ha) as (r & Hr1 & Hr2). exists r. rewrite Hl. auto.
Qed.

(** ** C56 *)
Theorem C56_only_candidates_sampled : forall ops w cfg fuel all arms g best s,
  run SE ops w cfg fuel all arms g = Returned best s ->
  forall j, j < length arms -> exists r,
    r <= length (b_cum s) /\ (1 <= length (b_cum s) -> 1 <= r) /\
    (forall t, t < r -> recorded_samples s j t = Some (c_units cfg)) /\
    (forall t, r <= t < length (b_cum s) -> recorded_samples s j t = Some 0 /\ recorded s j t = recorded s j (r - 1)) /\
    (In j (b_cand s) -> r = length (b_cum s)).
Proof.
  intros ops w cfg fuel all arms g best s Hr j Hj.
  pose proof (run_se_inv ops w cfg fuel all arms g) as H. rewrite Hr in H. destruct H as [H _].
  destruct (se_rec _ _ _ _ H j Hj) as (r & Hrec & Hin). exists r.
  destruct (arm_record_samples cfg s j r Hrec) as [Ha Hb]. destruct Hrec as (H1 & H2 & _ & _). auto 6.
Qed.

(** ** C57 *)
Theorem C57_se_accounting : forall ops w cfg fuel all arms g best s,
  run SE ops w cfg fuel all arms g = Returned best s ->
  (forall t, t < length (b_cum s) -> nth_error (b_cum s) t = Some (samples_upto s t)) /\
  (forall j t, j < length arms -> t < length (b_cum s) ->
     recorded_samples s j t = Some 0 \/ recorded_samples s j t = Some (c_units cfg)).
Proof.
  intros ops w cfg fuel all arms g best s Hr.
  pose proof (run_se_inv ops w cfg fuel all arms g) as H. rewrite Hr in H. destruct H as [H _].
  split; [apply H|]. intros j t Hj Ht. destruct (se_rec _ _ _ _ H j Hj) as (r & Hrec & _).
  destruct (arm_record_samples cfg s j r Hrec) as [Ha Hb]. destruct (Nat.lt_ge_cases t r); [auto|]. left. apply Hb. lia.
Qed.

(** ** C58 *)
Theorem C58_se_termination : forall ops w cfg z fuel all arms g,
  c_limit cfg = LInt z -> 0 < c_units cfg ->
  Z.to_nat z / (2 * c_units cfg) + 2 <= fuel ->
  terminated (run SE ops w cfg fuel all arms g).
Proof. intros ops w cfg z fuel all arms g Hz H1 H2. eapply se_terminates; eauto. lia. Qed.

Theorem C58_se_overshoot : forall ops w cfg z fuel all arms g best s,
  c_limit cfg = LInt z -> 0 < c_units cfg ->
  run SE ops w cfg fuel all arms g = Returned best s ->
  length (b_cum s) <= Z.to_nat z / (2 * c_units cfg) + 1 /\
  b_total s <= Z.to_nat z + length arms * c_units cfg.
Proof. intros ops w cfg z fuel all arms g best s. apply se_rounds. Qed.

(** ** C59 *)
Theorem C59_best_arm_survives : forall ops w cfg fuel all arms g best s (v : nat -> R),
  run SE ops w cfg fuel all arms g = Returned best s ->
  all_recorded (fun j r => good_interval r /\ in_interval r (v j)) s ->
  (forall j, j < length arms -> exists b, In b (b_cand s) /\ (v b <= v j)%R) /\
  (arms <> [] -> length (b_cand s) <= 1 ->
   exists b, best = [b] /\ b < length arms /\ forall j, j < length arms -> (v b <= v j)%R).
Proof.
  intros ops w cfg fuel all arms g best s v Hr Hall.
  pose proof (se_survive ops w cfg fuel all arms g v) as H. rewrite Hr in H. specialize (H Hall).
  split; [exact H|]. intros Hne Hlen.
  pose proof (run_se_inv ops w cfg fuel all arms g) as Hi. rewrite Hr in Hi. destruct Hi as [Hi _].
  destruct (se_exit ops w cfg fuel all arms g best s Hr) as [[-> _]|(Hc & _)]; [|lia].
  assert (Hk : 0 < length arms) by (destruct arms; [contradiction|simpl; lia]).
  destruct (H 0 Hk) as (b & Hb & _).
  destruct (b_cand s) as [|b0 [|]] eqn:E; simpl in Hlen; try lia; [contradiction|].
  exists b0. split; [reflexivity|]. split; [apply (se_b _ _ _ _ Hi); rewrite E; left; reflexivity|].
  intros j Hj. destruct (H j Hj) as (b1 & Hb1 & Hle). rewrite E in Hb1. destruct Hb1 as [<-|[]]. exact Hle.
Qed.

(** ** C60 *)
Theorem C60_never_empty : forall ops w cfg fuel all arms g best s,
  arms <> [] -> run SE ops w cfg fuel all arms g = Returned best s ->
  all_recorded (fun _ r => good_interval r) s ->
  b_cand s <> [] /\
  (~ exceeds (b_total s) (c_limit cfg) -> exists b, best = [b]) /\
  (forall rs, reported ops s rs -> Forall num (map r_var rs) -> best <> []).
Proof.
  intros ops w cfg fuel all arms g best s Hne Hr Hall.
  pose proof (se_nonempty ops w cfg fuel all arms g Hne) as H. rewrite Hr in H. specialize (H Hall).
  split; [exact H|].
  destruct (se_exit ops w cfg fuel all arms g best s Hr) as [[-> Hl]|(Hc & He & rs & Hrs & Hs)].
  - split; [|auto]. intros _. destruct (b_cand s) as [|b [|]]; simpl in *; try lia; [contradiction|eauto].
  - split; [contradiction|]. intros rs' Hrs' Hn.
    assert (E : rs' = rs) by (apply collect_reported in Hrs, Hrs'; congruence). subst rs'.
    apply (argmins_nonempty _ _ Hn) in Hs; [apply Hs|].
    apply collect_reported in Hrs. pose proof (collect_length _ _ _ Hrs) as HL.
    pose proof (run_shape ops w cfg SE fuel all arms g) as Hsh. rewrite Hr in Hsh.
    rewrite (sh_arms _ _ _ Hsh) in HL. destruct rs; [destruct arms; [contradiction|simpl in HL; lia]|discriminate].
Qed.

(** ** C62 *)
Theorem C62_se_ignores_error_tol : forall ops w p tol tol' c lim u fuel all arms g,
  run SE ops w (mkConfig p tol c lim u) fuel all arms g = run SE ops w (mkConfig p tol' c lim u) fuel all arms g.
Proof. reflexivity. Qed.

(** no algorithm reads the [confidence] argument *)
Theorem C62_confidence_never_used : forall alg ops w p tol c c' lim u fuel all arms g,
  run alg ops w (mkConfig p tol c lim u) fuel all arms g = run alg ops w (mkConfig p tol c' lim u) fuel all arms g.
Proof. destruct alg; reflexivity. Qed.

(** ** C63 *)
Theorem C63_select_arms : forall ops w arms rs g,
  collect ops arms = Ok rs -> Forall numeric rs -> fair_choice w ->
  ((forall i, i < length rs -> incumbent rs i) -> exists g', select_arms ops w arms g = (Err ValueError, g')) /\
  ((exists i, i < length rs /\ ~ incumbent rs i) ->
   exists a b g', select_arms ops w arms g = (Ok [a; b], g') /\ a < length rs /\ b < length rs /\
    (exists i, incumbent rs i /\ fkey (r_ucb (rd rs i)) = fkey (r_ucb (rd rs a))) /\
    (forall i, incumbent rs i -> (fkey (r_ucb (rd rs i)) <= fkey (r_ucb (rd rs a)))%R) /\
    (exists j, j < length rs /\ ~ incumbent rs j /\ fkey (r_lcb (rd rs j)) = fkey (r_lcb (rd rs b))) /\
    (forall j, j < length rs -> ~ incumbent rs j -> (fkey (r_lcb (rd rs b)) <= fkey (r_lcb (rd rs j)))%R)).
Proof. exact (fun ops w arms rs g => select_spec ops w arms rs g). Qed.

(** ** C64 *)
Theorem C64_recorded_rounds : forall ops w cfg fuel all arms g best s,
  fair_choice w -> run LUCB ops w cfg fuel all arms g = Returned best s ->
  (forall t, t < length (b_cum s) ->
    (t = 0 -> forall k, k < length arms -> recorded_samples s k t = Some (c_units cfg)) /\
    (0 < t -> exists i j, i < length arms /\ j < length arms /\ forall k, k < length arms ->
       recorded_samples s k t = Some (if (k =? i) || (k =? j) then c_units cfg else 0))) /\
  list_sum (map list_sum (b_smp s)) <= b_total s.
Proof.
  intros ops w cfg fuel all arms g best s Hf Hr. pose proof (run_lucb_K ops w cfg fuel all arms g Hf) as H.
  rewrite Hr in H. destruct H as (_ & H1 & H2 & _). split; [exact H1|lia].
Qed.

Theorem C64_distinct_arms_accounts_agree : forall ops w cfg fuel all arms g best s,
  fair_choice w -> 0 < c_units cfg -> run LUCB ops w cfg fuel all arms g = Returned best s ->
  (forall t, 0 < t < length (b_cum s) -> exists i j, i <> j /\
     recorded_samples s i t = Some (c_units cfg) /\ recorded_samples s j t = Some (c_units cfg)) ->
  forall t, t < length (b_cum s) -> nth_error (b_cum s) t = Some (samples_upto s t).
Proof.
  intros ops w cfg fuel all arms g best s Hf Hu Hr Htwo. pose proof (run_lucb_K ops w cfg fuel all arms g Hf) as H.
  rewrite Hr in H. destruct H as (_ & _ & _ & H). apply (H Hu). exact Htwo.
Qed.

(** ** C65 *)
Theorem C65_lucb_termination : forall ops w cfg z fuel all arms g,
  c_limit cfg = LInt z -> 0 < c_units cfg ->
  (Z.to_nat z - length arms * c_units cfg) / (2 * c_units cfg) + 2 <= fuel ->
  terminated (run LUCB ops w cfg fuel all arms g).
Proof. intros ops w cfg z fuel all arms g Hz H1 H2. eapply lucb_terminates; eauto. lia. Qed.

Theorem C65_lucb_accounting : forall ops w cfg fuel all arms g best s,
  run LUCB ops w cfg fuel all arms g = Returned best s ->
  1 <= length (b_cum s) /\
  (forall t, t < length (b_cum s) ->
     nth_error (b_cum s) t = Some (length arms * c_units cfg + t * (2 * c_units cfg))) /\
  forall z, c_limit cfg = LInt z -> 0 < c_units cfg ->
    length (b_cum s) <= (Z.to_nat z - length arms * c_units cfg) / (2 * c_units cfg) + 2 /\
    b_total s <= Z.to_nat z + Nat.max (length arms) 2 * c_units cfg.
Proof.
  intros ops w cfg fuel all arms g best s Hr.
  pose proof (run_lucb_acc ops w cfg fuel all arms g) as H. rewrite Hr in H. destruct H as ((_ & H1 & _ & H2) & _).
  split; [exact H1|]. split; [exact H2|]. intros z Hz Hu. eapply lucb_rounds; eauto.
Qed.

(** the running total is the last recorded cumulative count *)
Theorem C65_total_is_last : forall alg ops w cfg fuel all arms g best s,
  run alg ops w cfg fuel all arms g = Returned best s -> b_total s = last (b_cum s) 0.
Proof.
  intros alg ops w cfg fuel all arms g best s Hr.
  pose proof (run_inv ops w cfg alg fuel all arms g (fun s => b_total s = last (b_cum s) 0) (fun _ s => b_total s = last (b_cum s) 0)) as H.
  rewrite Hr in H. apply H; clear H.
  - reflexivity.
  - intros ->. pose proof (lucb_start_inv ops w cfg all arms g) as H. destruct (lucb_start ops w cfg all arms g); [|exact I|exact I].
    destruct H as (d & g1 & arms' & g2 & rs & _ & _ & _ & ->). reflexivity.
  - intros s0 Hs0. destruct alg.
    + pose proof (uniform_step_inv ops w cfg all s0) as H. destruct (uniform_step ops w cfg all s0); [| |exact I].
      * destruct H as (? & ? & ? & ? & ? & ? & ? & _ & _ & _ & _ & -> & _). simpl. rewrite last_last. reflexivity.
      * destruct H as (? & ? & ? & ? & ? & ? & _ & _ & _ & _ & -> & _). simpl. rewrite last_last. reflexivity.
    + pose proof (lucb_step_inv ops w cfg all s0) as H. destruct (lucb_step ops w cfg all s0); [| |exact I].
      * destruct H as (_ & ? & ? & ? & ? & ? & ? & _ & _ & _ & -> & _). simpl. rewrite last_last. reflexivity.
      * destruct H as [(-> & _)|(_ & ? & ? & ? & ? & ? & _ & _ & _ & -> & _)]; [exact Hs0|]. simpl. rewrite last_last. reflexivity.
    + pose proof (se_step_inv ops w cfg all s0) as H. destruct (se_step ops w cfg all s0); [| |exact I].
      * destruct H as (_ & _ & ? & ? & ? & ? & _ & _ & _ & -> & _). simpl. rewrite last_last. reflexivity.
      * destruct H as [(-> & _)|[(-> & _)|(_ & _ & ? & ? & ? & _ & _ & _ & -> & _)]]; [exact Hs0|exact Hs0|]. simpl. rewrite last_last. reflexivity.
Qed.

(** ** C66, C67: [rows d] are the units of a dataset; slicing returns a window of them and
    arms count the units they receive. The statements cover every outcome of the run,
    including runs that raise and unfinished ones. *)
Definition slices_rows {X} (w : world D G) (rows : D -> list X) (d0 : D) : Prop :=
  forall a b d', w_slice w d0 a b = Ok d' -> rows d' = firstn (b - a) (skipn a (rows d0)).
Definition counts_rows {X} ops (rows : D -> list X) : Prop :=
  forall a d delta g a' g', a_update ops a d delta g = ((a', g'), None) ->
    a_units ops a' = a_units ops a + length (rows d).

Theorem C66_arms_read_sequentially : forall X (rows : D -> list X) d0 alg ops w cfg fuel arms g,
  slices_rows w rows d0 -> counts_rows ops rows -> (alg = LUCB -> fair_choice w) ->
  arms <> [] -> (forall a, In a arms -> a_units ops a = 0) ->
  let u := c_units cfg in
  let o := run alg (logged ops) w cfg fuel (Some d0) (with_log arms) g in
  erase_outcome o = run alg ops w cfg fuel (Some d0) arms g /\
  forall x k b delta, In x (b_arms (final_state o)) -> nth_error (snd x) k = Some (b, delta) ->
    rows b = firstn u (skipn (k * u) (rows d0)) /\ delta = fdiv (c_error_prob cfg) (f_of_nat (length arms)).
Proof.
  intros X rows d0 alg ops w cfg fuel arms g H1 H2 H3 H4 H5. cbv zeta.
  split; [symmetry; apply run_logged|]. intros x k b delta Hx Hk.
  pose proof (run_stable ops w cfg rows d0 H1 H2 alg fuel arms g H4 H5 H3) as H. unfold final_ok in H.
  rewrite Forall_forall in H. exact (proj1 (H x Hx) k b delta Hk).
Qed.

Theorem C66_inputs_agree_across_algorithms : forall X (rows : D -> list X) d0 alg1 alg2 ops w cfg fuel1 fuel2 arms g1 g2,
  slices_rows w rows d0 -> counts_rows ops rows -> fair_choice w ->
  arms <> [] -> (forall a, In a arms -> a_units ops a = 0) ->
  forall x1 x2 k b1 b2 delta1 delta2,
  In x1 (b_arms (final_state (run alg1 (logged ops) w cfg fuel1 (Some d0) (with_log arms) g1))) ->
  In x2 (b_arms (final_state (run alg2 (logged ops) w cfg fuel2 (Some d0) (with_log arms) g2))) ->
  nth_error (snd x1) k = Some (b1, delta1) -> nth_error (snd x2) k = Some (b2, delta2) ->
  rows b1 = rows b2 /\ delta1 = delta2.
Proof.
  intros X rows d0 alg1 alg2 ops w cfg fuel1 fuel2 arms g1 g2 H1 H2 H3 H4 H5 x1 x2 k b1 b2 e1 e2 Hx1 Hx2 Hk1 Hk2.
  destruct (C66_arms_read_sequentially X rows d0 alg1 ops w cfg fuel1 arms g1 H1 H2 (fun _ => H3) H4 H5) as [_ Ha].
  destruct (C66_arms_read_sequentially X rows d0 alg2 ops w cfg fuel2 arms g2 H1 H2 (fun _ => H3) H4 H5) as [_ Hb].
  destruct (Ha _ _ _ _ Hx1 Hk1) as [-> ->]. destruct (Hb _ _ _ _ Hx2 Hk2) as [-> ->]. auto.
Qed.

Theorem C67_enough_rows : forall X (rows : D -> list X) d0 alg ops w cfg fuel arms g z,
  slices_rows w rows d0 -> counts_rows ops rows -> (alg = LUCB -> fair_choice w) ->
  arms <> [] -> (forall a, In a arms -> a_units ops a = 0) ->
  c_limit cfg = LInt z -> Z.to_nat z + length arms * c_units cfg <= length (rows d0) ->
  forall x b delta, In x (b_arms (final_state (run alg (logged ops) w cfg fuel (Some d0) (with_log arms) g))) ->
    In (b, delta) (snd x) -> length (rows b) = c_units cfg.
Proof.
  intros X rows d0 alg ops w cfg fuel arms g z H1 H2 H3 H4 H5 Hz Hn x b delta Hx Hb.
  pose proof (run_stable ops w cfg rows d0 H1 H2 alg fuel arms g H4 H5 H3) as H. unfold final_ok in H.
  rewrite Forall_forall in H. destruct (H x Hx) as [Hlog Hbd].
  apply In_nth_error in Hb as (k & Hk). destruct (Hlog k b delta Hk) as [-> _].
  assert (Hkl : k < length (snd x)) by (apply nth_error_Some; congruence).
  specialize (Hbd (ex_intro _ z Hz)). unfold bound in Hbd. rewrite Hz in Hbd.
  rewrite window_length. nia.
Qed.

(** ** C69 *)
Theorem C69_reset_then_run : forall alg alg' ops w cfg fuel fuel' all all' arms g g',
  (forall a d delta g a' g' e, a_update ops a d delta g = ((a', g'), e) -> a_reset ops a' = a_reset ops a) ->
  (forall a, In a arms -> a_reset ops a = a) ->
  let used := b_arms (final_state (run alg ops w cfg fuel all arms g)) in
  run alg' ops w cfg fuel' all' (bandit_reset ops used) g' = run alg' ops w cfg fuel' all' arms g'.
Proof.
  intros alg alg' ops w cfg fuel fuel' all all' arms g g' Hup Hfresh. cbv zeta.
  rewrite (reset_restores ops w cfg alg fuel all arms g Hup). f_equal. unfold bandit_reset.
  rewrite <- (map_id arms) at 2. apply map_ext_in. exact Hfresh.
Qed.

(** ** C70 *)
Theorem C70_uniform_one_arm : forall ops w cfg fuel all a g,
  match run Uniform ops w cfg fuel all [a] g with
  | Returned _ s => exceeds (b_total s) (c_limit cfg) /\
      forall t r, S t < length (b_cum s) -> recorded s 0 t = Some r -> undecided r
  | Raised _ _ => True
  | OutOfFuel s => forall t r, recorded s 0 t = Some r -> undecided r
  end.
Proof. exact (fun ops w cfg => uniform_single ops w cfg). Qed.

Theorem C70_uniform_one_arm_raises : forall ops w cfg fuel all a g d g1 a' g2 r,
  get_data w cfg all (match all with Some _ => a_units ops a | None => 0 end) g = (Ok d, g1) ->
  a_update ops a d (delta_of cfg [a]) g1 = ((a', g2), None) ->
  reports ops a' r -> ~ undecided r -> over_limit (c_units cfg) (c_limit cfg) = Ok false ->
  exists s, run Uniform ops w cfg (S fuel) all [a] g = Raised ValueError s.
Proof.
  intros ops w cfg fuel all a g d g1 a' g2 r H1 H2 H3 H4 H5. unfold undecided in H4.
  eapply uniform_single_raises; eauto.
  - destruct (fisinf (r_ucb r)); [exfalso; auto|reflexivity].
  - destruct (fisnan (r_var r)); [exfalso; auto|reflexivity].
Qed.

Theorem C70_lucb_one_arm : forall ops w cfg fuel all a g,
  match run LUCB ops w cfg (S fuel) all [a] g with
  | Returned _ s => exceeds (c_units cfg) (c_limit cfg) /\ length (b_cum s) = 1
  | Raised e s => b_cum s <> [] /\ (exists z, c_limit cfg = LInt z) /\ ~ exceeds (c_units cfg) (c_limit cfg) -> e = ValueError
  | OutOfFuel s => False
  end.
Proof. exact (fun ops w cfg => lucb_single ops w cfg). Qed.

Theorem C70_se_one_arm : forall ops w cfg fuel all a g,
  run SE ops w cfg (S fuel) all [a] g = Returned [0] (binit [a] g) /\
  b_cum (binit [a] g) = [] /\ b_arms (binit [a] g) = [a].
Proof. intros. split; [apply se_single|]. split; reflexivity. Qed.
End Statements.
Print Assumptions C50_uniform_accounting.
Print Assumptions C51_uniform_termination.
Print Assumptions C51_uniform_overshoot.
Print Assumptions C52_no_limit_no_return.
Print Assumptions C53_confidence_stop.
Print Assumptions C53_confidence_stop_sound.
Print Assumptions C54_limit_stop.
Print Assumptions C54_smallest_nonempty.
Print Assumptions C55_histories.
Print Assumptions C56_only_candidates_sampled.
Print Assumptions C57_se_accounting.
Print Assumptions C58_se_termination.
Print Assumptions C58_se_overshoot.
Print Assumptions C59_best_arm_survives.
Print Assumptions C60_never_empty.
Print Assumptions C62_se_ignores_error_tol.
Print Assumptions C62_confidence_never_used.
Print Assumptions C63_select_arms.
Print Assumptions C64_recorded_rounds.
Print Assumptions C64_distinct_arms_accounts_agree.
Print Assumptions C65_lucb_termination.
Print Assumptions C65_lucb_accounting.
Print Assumptions C65_total_is_last.
Print Assumptions C66_arms_read_sequentially.
Print Assumptions C66_inputs_agree_across_algorithms.
Print Assumptions C67_enough_rows.
Print Assumptions C69_reset_then_run.
Print Assumptions C70_uniform_one_arm.
Print Assumptions C70_uniform_one_arm_raises.
Print Assumptions C70_lucb_one_arm.
Print Assumptions C70_se_one_arm.


Lemma window_filter {X} (f : nat -> X) a b n :
  map f (filter (fun j => (a <=? j) && (j <? b)) (seq 0 n)) = firstn (b - a) (skipn a (map f (seq 0 n))).
Proof.
  induction n as [|n IH]; [simpl; rewrite skipn_nil, firstn_nil; reflexivity|].
  rewrite seq_S, filter_app, !map_app, IH, skipn_app, firstn_app, map_length, seq_length, skipn_length, map_length, seq_length.
  f_equal. cbn [map filter plus].
  destruct (Nat.leb_spec a n); destruct (Nat.ltb_spec n b); cbn [andb map].
  - replace (a - n) with 0 by lia. cbn [skipn]. replace (b - a - (n - a)) with (S (b - S n)) by lia. rewrite firstn_cons, firstn_nil. reflexivity.
  - replace (b - a - (n - a)) with 0 by lia. reflexivity.
  - destruct (a - n) eqn:E; [lia|]. cbn [skipn]. rewrite skipn_nil, firstn_nil. reflexivity.
  - destruct (a - n) eqn:E; [lia|]. cbn [skipn]. rewrite skipn_nil, firstn_nil. reflexivity.
Qed.

(** the stable-order statements for real datasets: [getslice] is ExpData.__getitem__ *)
Theorem C66_expdata : forall (V A G : Type) (d0 : expdata V) alg (ops : arm_ops A (expdata V) G)
  (gen : G -> nat -> res (expdata V) * G) choice choice2 cfg fuel arms g,
  aligned d0 ->
  (forall a d delta g a' g', a_update ops a d delta g = ((a', g'), None) -> a_units ops a' = a_units ops a + length (units d)) ->
  let w := mkWorld (expdata V) G gen (fun d a b => getslice d (Some (Z.of_nat a)) (Some (Z.of_nat b))) choice choice2 in
  (alg = LUCB -> fair_choice w) -> arms <> [] -> (forall a, In a arms -> a_units ops a = 0) ->
  forall x k b delta,
    In x (b_arms (final_state (run alg (logged ops) w cfg fuel (Some d0) (with_log arms) g))) ->
    nth_error (snd x) k = Some (b, delta) ->
    units b = firstn (c_units cfg) (skipn (k * c_units cfg) (units d0)).
Proof.
  intros V A G d0 alg ops gen ch ch2 cfg fuel arms g Hal Hc w Hf Hne H0 x k b delta Hx Hk.
  refine (proj1 (proj2 (C66_arms_read_sequentially _ (@units V) d0 alg ops w cfg fuel arms g _ Hc Hf Hne H0) x k b delta Hx Hk)).
  intros a b' d' E. simpl in E. destruct (getslice_window_l d0 a b' Hal) as (s & Es & _ & _ & Hu).
  rewrite Es in E. injection E as <-. rewrite Hu. unfold units. apply window_filter.
Qed.
Print Assumptions C66_expdata.

(** ** examples meeting the hypotheses *)
Definition returned {S R} (o : outcome S R) : option R := match o with Returned b _ => Some b | _ => None end.
Definition raised {S R} (o : outcome S R) : option exn := match o with Raised e _ => Some e | _ => None end.
Lemma returned_final {S R} (o : outcome S R) b : returned o = Some b -> o = Returned b (final_state o).
Proof. destruct o; simpl; congruence. Qed.
Lemma raised_final {S R} (o : outcome S R) e : raised o = Some e -> o = Raised e (final_state o).
Proof. destruct o; simpl; congruence. Qed.
Definition within (x : F) (r : reading) : bool :=
  fltb (r_lcb r) (r_ucb r) && is_finite (r_lcb r) && is_finite (r_ucb r) && is_finite x && fleb (r_lcb r) x && fleb x (r_ucb r).
Lemma within_all {A G} (s : bstate (A := A) (G := G)) (xs : list F) :
  length xs = length (b_hist s) ->
  forallb (fun p => forallb (within (fst p)) (snd p)) (combine xs (b_hist s)) = true ->
  all_recorded (fun j r => good_interval r /\ in_interval r (B2R (nth j xs f0))) s.
Proof.
  intros Hl H j t r. unfold recorded. destruct (nth_error (b_hist s) j) as [h|] eqn:E; [|discriminate]. intros Et.
  assert (Hj : j < length xs) by (rewrite Hl; apply nth_error_Some; congruence).
  rewrite forallb_forall in H.
  assert (Hin : In (nth j xs f0, h) (combine xs (b_hist s))).
  { replace (nth j xs f0, h) with (nth j (combine xs (b_hist s)) (f0, h)).
    - apply nth_In. rewrite combine_length. lia.
    - rewrite combine_nth by exact Hl. f_equal. apply nth_error_nth. exact E. }
  specialize (H _ Hin). simpl in H. rewrite forallb_forall in H. specialize (H r (nth_error_In _ _ Et)).
  unfold within in H. rewrite !andb_true_iff in H. destruct H as (((((H1 & H2) & H3) & H4) & H5) & H6).
  apply fleb_spec in H5 as (_ & _ & H5). apply fleb_spec in H6 as (_ & _ & H6). rewrite !fkey_finite in H5, H6 by assumption.
  split; [exact H1|]. split; right; auto.
Qed.
Example C50_case : summary (run Uniform script_ops toy_world (cfg_of 100 3) 5 None two 7) =
  Some ([0], [6; 12], [[3; 3]; [3; 3]]).
Proof. vm_compute. reflexivity. Qed.
Example C51_case : summary (run Uniform script_ops toy_world (cfg_of 20 3) 4 None tie 7) =
  Some ([0], [6; 12; 18; 24], [[3; 3; 3; 3]; [3; 3; 3; 3]]).
Proof. vm_compute. reflexivity. Qed.
Definition blind_ops : arm_ops nat (list nat) nat :=
  mkArmOps nat (list nat) nat (fun _ => f_of_Z 2) (fun _ => (Some f0, Some finf)) (fun _ => Some finf)
    (fun n => n) (fun n d _ g => ((n + length d, S g), None)) (fun _ => 0).
Example C52_case : forall fuel, ~ terminated (run Uniform blind_ops toy_world
    (mkConfig (flit 5 100) f0 (Some (flit 5 100)) LInf 10) fuel None [0; 0] 1).
Proof.
  intros fuel. apply C52_no_limit_no_return; [reflexivity|discriminate| | |].
  - intros. simpl. eauto.
  - intros. simpl. eauto.
  - intros. simpl. do 4 eexists. repeat split.
Qed.
Example C53_case : exists s, run Uniform script_ops toy_world (cfg_of 100 3) 5 None two 7 = Returned [0] s /\
  ~ exceeds (b_total s) (LInt 100).
Proof. eexists. split; [apply returned_final; vm_compute; reflexivity|]. vm_compute. discriminate. Qed.
Example C53_case_lucb : exists s, run LUCB script_ops toy_world (cfg_of 100 3) 5 None
    [arm_of [ft 1 7 2; ft 1 3 2]; arm_of [ft 0 6 6; ft 4 8 6]] 7 = Returned [0] s /\ ~ exceeds (b_total s) (LInt 100).
Proof. eexists. split; [apply returned_final; vm_compute; reflexivity|]. vm_compute. discriminate. Qed.
Example C54_case : smallest_variance (map r_var [mkReading f0 finf (f_of_Z 6); mkReading f0 finf (f_of_Z 5); mkReading f0 finf (f_of_Z 5)]) [1; 2].
Proof. apply argmin_arms_spec. vm_compute. reflexivity. Qed.
Example C54_case_nan : summary (run Uniform script_ops toy_world (cfg_of 20 3) 4 None
   [arm_of [(f0, finf, fnan)]; arm_of [ft 0 9 6]] 7) = Some ([], [6; 12; 18; 24], [[3; 3; 3; 3]; [3; 3; 3; 3]]).
Proof. vm_compute. reflexivity. Qed.
(** three arms, one eliminated in the first round, the rest separate in the second *)
Definition three : list script := [arm_of [ft 5 6 5]; arm_of [ft 0 4 1; ft 1 2 1]; arm_of [ft 0 4 2; ft 3 4 3]].
Example C56_case : summary (run SE script_ops toy_world (cfg_of 100 2) 5 None three 7) =
  Some ([1], [6; 10], [[2; 0]; [2; 2]; [2; 2]]).
Proof. vm_compute. reflexivity. Qed.
Example C59_case : exists s v, run SE script_ops toy_world (cfg_of 100 2) 5 None three 7 = Returned [1] s /\
  all_recorded (fun j r => good_interval r /\ in_interval r (v j)) s.
Proof.
  eexists. exists (fun j => B2R (nth j [flit 11 2; flit 3 2; flit 7 2] f0)).
  split; [apply returned_final; vm_compute; reflexivity|]. apply within_all; vm_compute; reflexivity.
Qed.
(** C60: degenerate intervals eliminate every arm *)
Theorem C60_degenerate_refuted : exists A D G (ops : arm_ops A D G) w cfg fuel arms g s,
  arms <> [] /\ run SE ops w cfg fuel None arms g = Returned [] s /\ ~ exceeds (b_total s) (c_limit cfg).
Proof.
  exists script, (list nat), nat, script_ops, toy_world, (cfg_of 100 2), 5, [arm_of [ft 1 1 1]; arm_of [ft 1 1 1]], 0.
  eexists. split; [discriminate|]. split; [apply returned_final; vm_compute; reflexivity|]. vm_compute. discriminate.
Qed.
Print Assumptions C60_degenerate_refuted.
(** C61: the limit exit returns only an arm that was eliminated before *)
Theorem C61_limit_resurrects : exists A D G (ops : arm_ops A D G) w cfg fuel arms g i s,
  run SE ops w cfg fuel None arms g = Returned [i] s /\ ~ In i (b_cand s) /\
  recorded_samples s i 1 = Some 0 /\ length (b_cum s) = 2.
Proof.
  exists script, (list nat), nat, script_ops, toy_world, (cfg_of 3 1), 5,
    [arm_of [ft 5 6 5]; arm_of [ft 0 4 1; ft 0 40 10]; arm_of [ft 0 4 2; ft 0 40 10]], 0, 0.
  eexists. split; [apply returned_final; vm_compute; reflexivity|]. split; [vm_compute; intros [H|[H|[]]]; discriminate|]. split; vm_compute; reflexivity.
Qed.
Print Assumptions C61_limit_resurrects.
Example C63_case : select_arms script_ops toy_world [mkScript [] (Some (ft 0 5 1)) 0; mkScript [] (Some (ft 1 6 2)) 0; mkScript [] (Some (ft 0 7 2)) 0] 0 = (Ok [0; 0], 0) /\
  select_arms script_ops toy_world [mkScript [] (Some (ft 0 5 1)) 0; mkScript [] (Some (ft 1 6 1)) 0] 0 = (Err ValueError, 0).
Proof. split; vm_compute; reflexivity. Qed.
(** C64: the same arm drawn twice; cum_samples counts 2u, samples_by_arm only u *)
Theorem C64_same_arm_twice : exists A D G (ops : arm_ops A D G) w cfg fuel arms g best s,
  fair_choice w /\ run LUCB ops w cfg fuel None arms g = Returned best s /\
  recorded_samples s 0 1 = Some 3 /\ recorded_samples s 1 1 = Some 0 /\
  nth_error (b_cum s) 1 = Some 12 /\ samples_upto s 1 = 9.
Proof.
  exists script, (list nat), nat, script_ops, toy_world, (cfg_of 10 3), 5, [arm_of [ft 0 5 1]; arm_of [ft 0 5 2]], 0.
  do 2 eexists. split; [exact toy_fair|]. split; [apply returned_final; vm_compute; reflexivity|]. repeat split; vm_compute; reflexivity.
Qed.
Print Assumptions C64_same_arm_twice.
Example C64_case : summary (run LUCB script_ops toy_world (cfg_of 10 3) 5 None [arm_of [ft 1 6 1]; arm_of [ft 0 5 2]] 0) =
  Some ([0], [6; 12], [[3; 3]; [3; 3]]).
Proof. vm_compute. reflexivity. Qed.
Example C65_case : summary (run LUCB script_ops toy_world (cfg_of 20 3) 5 None [arm_of [ft 1 6 1]; arm_of [ft 0 5 2]; arm_of [ft 2 9 9]] 0) =
  Some ([0], [9; 15; 21], [[3; 3; 3]; [3; 3; 3]; [3; 0; 0]]).
Proof. vm_compute. reflexivity. Qed.
Example C66_case : exists s, run SE (logged script_ops) toy_world (cfg_of 8 2) 5 (Some (seq 100 14)) (with_log three) 0 = Returned [1] s /\
  map (fun x => map fst (snd x)) (b_arms s) = [[[100; 101]]; [[100; 101]; [102; 103]]; [[100; 101]; [102; 103]]].
Proof. eexists. split; [apply returned_final|]; vm_compute; reflexivity. Qed.
Example C66_case_hyps : slices_rows toy_world (fun d => d) (seq 100 14) /\ counts_rows script_ops (fun d : list nat => d) /\
  (forall a, In a three -> a_units script_ops a = 0).
Proof.
  split; [|split].
  - intros a b d' H. injection H as <-. reflexivity.
  - intros a d delta g a' g' H. simpl in H. destruct (sc_todo a); injection H as <- <-; reflexivity.
  - intros a Ha. simpl in Ha. destruct Ha as [<-|[<-|[<-|[]]]]; reflexivity.
Qed.
(** C67 needs the extra K*u rows: with sample_limit rows only, a batch is short *)
Theorem C67_limit_rows_not_enough : exists (d0 : list nat) (s : bstate (A := script * list (list nat * F)) (G := nat)) best x b delta,
  length d0 = 4 /\ run Uniform (logged script_ops) toy_world (cfg_of 4 5) 5 (Some d0) (with_log tie) 0 = Returned best s /\
  nth_error (b_arms s) 0 = Some x /\ nth_error (snd x) 0 = Some (b, delta) /\ length b = 4.
Proof.
  exists [1; 2; 3; 4].
  set (o := run Uniform (logged script_ops) toy_world (cfg_of 4 5) 5 (Some [1; 2; 3; 4]) (with_log tie) 0).
  assert (E : option_map (fun x => map (fun p => length (fst p)) (snd x)) (nth_error (b_arms (final_state o)) 0) = Some [4]) by (vm_compute; reflexivity).
  destruct (nth_error (b_arms (final_state o)) 0) as [[a [|[b delta] [|]]]|] eqn:Ea; try discriminate. injection E as E.
  exists (final_state o), [0], (a, [(b, delta)]), b, delta.
  split; [reflexivity|]. split; [apply returned_final; vm_compute; reflexivity|]. auto.
Qed.
Print Assumptions C67_limit_rows_not_enough.
Definition count_ops : arm_ops (nat * nat) (list nat) nat :=
  mkArmOps (nat * nat) (list nat) nat (fun _ => f_of_Z 1)
    (fun a => match snd a with 0 => (None, None) | _ => (Some (f_of_nat (fst a)), Some (f_of_nat (fst a + 10 / snd a))) end)
    (fun a => match snd a with 0 => None | _ => Some (f_of_nat (fst a)) end)
    (fun a => snd a) (fun a d _ g => ((fst a, snd a + length d), g, None)) (fun a => (fst a, 0)).
Example C69_case :
  (forall a d delta g a' g' e, a_update count_ops a d delta g = ((a', g'), e) -> a_reset count_ops a' = a_reset count_ops a) /\
  summary (run LUCB count_ops toy_world (cfg_of 30 2) 20 None [(1, 0); (4, 0)] 0) = Some ([0], [4; 8], [[2; 2]; [2; 2]]) /\
  bandit_reset count_ops (b_arms (final_state (run LUCB count_ops toy_world (cfg_of 30 2) 20 None [(1, 0); (4, 0)] 0))) = [(1, 0); (4, 0)].
Proof.
  split; [|split; vm_compute; reflexivity].
  intros a d delta g a' g' e H. simpl in H. injection H as <- _ _. reflexivity.
Qed.
Example C70_case : exists s s', run Uniform script_ops toy_world (cfg_of 100 3) 5 None [arm_of [ft 1 2 1]] 0 = Raised ValueError s /\
  run LUCB script_ops toy_world (cfg_of 100 3) 5 None [arm_of [ft 1 2 1]] 0 = Raised ValueError s' /\ length (b_cum s') = 1.
Proof.
  do 2 eexists. split; [apply raised_final; vm_compute; reflexivity|].
  split; [apply raised_final; vm_compute; reflexivity|]. vm_compute. reflexivity.
Qed.
