(** Properties C19-C24 of scm.py. *)
From Coq Require Import List Arith ZArith Bool String Relations Lia.
From Verif Require Import PyBase PyLemmas DataModel ScmModel ScmSpec ScmProofs ScmProofs2.
Import ListNotations.
Open Scope nat_scope.

(** a concrete model for the examples: the front-door graph U -> X -> Z -> Y <- U, with
    integer samples; the random state is a counter, used by U only *)
Definition ex_vars : list string := ["U"; "X"; "Z"; "Y"]%string.
Definition ex_parents : sdict (list string) :=
  [("U", []); ("X", ["U"]); ("Z", ["X"]); ("Y", ["Z"; "U"])]%string.
Definition first_arg (args : list (arr Z)) : arr Z :=
  match args with a :: _ => a | [] => mkArr [] [] end.
Definition second_arg (args : list (arr Z)) : arr Z :=
  match args with _ :: b :: _ => b | _ => mkArr [] [] end.
Definition amap (f : Z -> Z) (a : arr Z) : arr Z := mkArr (atail a) (map (map f) (arows a)).
Definition ex_cpds : sdict (cpd Z nat) :=
  [("U", fun n _ g => (Ok (vec (map (fun i => Z.of_nat (g + i)) (seq 0 n))), g + n));
   ("X", fun n args g => (Ok (amap (fun u => u mod 2)%Z (first_arg args)), g));
   ("Z", fun n args g => (Ok (amap (fun x => 10 + x)%Z (first_arg args)), g));
   ("Y", fun n args g => (Ok (mkArr [] (map2 (fun z u => map2 Z.add z u)
            (arows (first_arg args)) (arows (second_arg args)))), g))]%string.
Definition ex_scm : scm Z nat :=
  mkScm "frontdoor" ex_vars ex_parents ex_cpds ["U"; "Z"]%string "X" "Y".

(** ** C19 *)
Theorem C19_constructor : forall V G name vars parents (cpds : sdict (cpd V G)) cov trt rsp,
  (forall s, scm_init name vars parents cpds cov trt rsp = Ok s <->
     complete_graph vars parents cpds cov trt rsp /\ s = mkScm name vars parents cpds cov trt rsp) /\
  (~ complete_graph vars parents cpds cov trt rsp ->
     scm_init name vars parents cpds cov trt rsp = Err ValueError).
Proof.
  intros. destruct (scm_init_spec name vars parents cpds cov trt rsp) as [[H E]|[H E]]; rewrite E.
  - split; [|tauto]. intros s. split; [intros [= <-]; auto|]. intros (_ & ->). reflexivity.
  - split; [|auto]. intros s. split; [discriminate|tauto].
Qed.
Print Assumptions C19_constructor.

Example C19_case :
  scm_init "frontdoor" ex_vars ex_parents ex_cpds ["U"; "Z"]%string "X" "Y" = Ok ex_scm /\
  (* a covariate that is not a variable; a response that is not one; a missing CPD *)
  scm_init "bad" ex_vars ex_parents ex_cpds ["W"]%string "X" "Y" = Err ValueError /\
  scm_init "bad" ex_vars ex_parents ex_cpds ["U"]%string "X" "W" = Err ValueError /\
  scm_init "bad" ex_vars ex_parents (tl ex_cpds) ["U"]%string "X" "Y" = Err ValueError.
Proof. repeat split. Qed.

(** ** C20 *)
Section C20.
  Context {V G : Type}.
  Implicit Types s : scm V G.

Theorem C20_topological : forall s n g,
    constructed s -> s_cov s <> [] ->
    (forall v f, In v (s_vars s) -> entry (s_cpds s) v f -> well_behaved n f) ->
    ((exists d g', generate s n g = (Ok d, g')) <-> topological s) /\
    (~ topological s -> exists g', generate s n g = (Err ValueError, g')).
  Proof.
    intros s n g Hc Hcov Hw. apply constructed_complete in Hc as (Hall & Ht & Hr & Hi).
    assert (Hvs : forall v, In v (s_vars s) -> (exists ps, entry (s_parents s) v ps) /\
                          (exists f, entry (s_cpds s) v f /\ well_behaved n f)).
    { intros v Hv. destruct (Hall v Hv) as (Hp & f & Hf). split; [exact Hp|].
      exists f. split; [exact Hf|]. eapply Hw; eauto. }
    destruct (gen_loop_well_behaved s n (s_vars s) [] g [] Hvs) as
      [(r & g' & E & Hn)|(g' & E & pre & v & post & p & Ev & Hp & Hni)].
    { intros v. cbn. intuition congruence. }
    { intros v a. discriminate. }
    - assert (Htop : topological s /\ forall v, sget r v <> None <-> In v (s_vars s)).
      { destruct (gen_loop_topological s n _ _ _ _ _ E [] ) as (H1 & H2).
        { intros v. cbn. intuition congruence. }
        split; [|exact H2]. intros pre v post p Ev Hp. exact (H1 pre v post p Ev Hp). }
      destruct Htop as (Htop & Hkeys).
      assert (Hok : exists d, generate s n g = (Ok d, g')).
      { unfold generate. rewrite E.
        assert (Hcols : exists cols, mapM (sfind r) (s_cov s) = Ok cols).
        { apply mapM_sfind_all, forallb_forall. intros v Hv. apply shas_sget, Hkeys, Hi, Hv. }
        destruct Hcols as (cols & Ec). rewrite Ec. cbn [bind].
        apply mapM_sfind_Forall2 in Ec.
        destruct (column_stack_succeeds n [] cols) as (x & Ex).
        { intros ->. inversion Ec. apply Hcov. congruence. }
        { intros c Hcin. clear - Ec Hn Hcin. induction Ec as [|v a vs cs H _ IH]; [destruct Hcin|].
          destruct Hcin as [->|Hcin]; [|apply IH, Hcin].
          destruct (Hn _ _ H) as (H1 & H2). split; [exact H1|].
          destruct (atail c) as [|? [|? ?]]; cbn in *; try reflexivity; lia. }
        rewrite Ex. cbn [bind]. unfold sfind.
        apply Hkeys in Ht, Hr. destruct (sget r (s_trt s)); [|congruence].
        destruct (sget r (s_rsp s)); [|congruence]. cbn. eauto. }
      split; [|tauto]. split; [intros _; exact Htop|]. intros _. destruct Hok as (d & Hd). eauto.
    - assert (Hbad : ~ topological s) by (intros H; exact (Hni (H pre v post p Ev Hp))).
      assert (Hg : generate s n g = (Err ValueError, g')) by (unfold generate; rewrite E; reflexivity).
      split; [|eauto]. split; [|tauto]. intros (d & g2 & H). rewrite H in Hg. discriminate Hg.
  Qed.

  (** whatever the CPDs do, a successful generate means a topological order, so the graph on the
      variables has no cycle *)
Theorem C20_success_implies_topological : forall s n g d g',
    generate s n g = (Ok d, g') -> topological s.
  Proof.
    intros s n g d g' H. apply generate_ok in H as (r & cols & x & t & y & E & _).
    destruct (gen_loop_topological s n _ _ _ _ _ E []) as (H1 & _).
    { intros v. cbn. intuition congruence. }
    intros pre v post p Ev Hp. exact (H1 pre v post p Ev Hp).
  Qed.

  Lemma topological_ancestors s : topological s ->
    forall p v, clos_trans _ (parent s) p v ->
    forall pre post, s_vars s = pre ++ v :: post -> In p pre.
  Proof.
    intros Ht p v H. induction H as [p v H|p q v H1 IH1 H2 IH2]; intros pre post E.
    - exact (Ht pre v post p E H).
    - pose proof (IH2 pre post E) as Hq. apply in_split in Hq as (l1 & l2 & ->).
      rewrite <- app_assoc in E. cbn in E. apply in_or_app. left. exact (IH1 l1 _ E).
  Qed.

  Lemma first_occurrence (v : string) l : In v l -> exists l1 l2, l = l1 ++ v :: l2 /\ ~ In v l1.
  Proof.
    induction l as [|w l IH]; intros H; [destruct H|].
    destruct (string_dec w v) as [->|N].
    - exists [], l. auto.
    - destruct H as [H|H]; [congruence|]. destruct (IH H) as (l1 & l2 & -> & Hn).
      exists (w :: l1), l2. split; [reflexivity|]. cbn. intuition congruence.
  Qed.

Theorem C20_cyclic_graph_never_accepted : forall s n g d g' v,
    In v (s_vars s) -> clos_trans _ (parent s) v v -> generate s n g <> (Ok d, g').
  Proof.
    intros s n g d g' v Hv Hcyc H. apply C20_success_implies_topological in H.
    destruct (first_occurrence v _ Hv) as (l1 & l2 & E & Hn).
    exact (Hn (topological_ancestors s H v v Hcyc l1 l2 E)).
  Qed.

  (** without covariates generate always raises *)
Theorem C20_no_covariates : forall s n g d g', s_cov s = [] -> generate s n g <> (Ok d, g').
  Proof.
    intros s n g d g' Hc H. apply generate_ok in H as (r & cols & x & t & y & _ & E & Ex & _).
    rewrite Hc in E. injection E as <-. discriminate Ex.
  Qed.
End C20.
Print Assumptions C20_topological.
Print Assumptions C20_success_implies_topological.
Print Assumptions C20_cyclic_graph_never_accepted.
Print Assumptions C20_no_covariates.

Definition ex_unordered : scm Z nat :=
  mkScm "unordered" ["X"; "U"; "Z"; "Y"]%string ex_parents
    (map (fun vf => (fst vf, fun n (_ : list (arr Z)) (g : nat) => (Ok (vec (repeat 1%Z n)), g))) ex_cpds)
    ["U"; "Z"]%string "X" "Y".
Definition ex_ordered : scm Z nat :=
  mkScm "ordered" ex_vars ex_parents (s_cpds ex_unordered) ["U"; "Z"]%string "X" "Y".

Lemma ex_well_behaved n v f : entry (s_cpds ex_unordered) v f -> well_behaved n f.
Proof.
  intros H. apply entry_sget in H. cbn in H.
  repeat (match type of H with (if ?c then _ else _) = _ => destruct c end; [injection H as <-|]);
    try discriminate H;
    intros args g; exists (vec (repeat 1%Z n)), g; unfold vec; cbn;
    rewrite map_length, repeat_length; auto.
Qed.

Example C20_case :
  (* hypotheses hold for both orders *)
  constructed ex_ordered /\ constructed ex_unordered /\
  (forall n v f, entry (s_cpds ex_ordered) v f -> well_behaved n f) /\
  topological ex_ordered /\ (exists d, generate ex_ordered 3 0 = (Ok d, 0)) /\
  ~ topological ex_unordered /\ generate ex_unordered 3 0 = (Err ValueError, 0).
Proof.
  assert (H1 : constructed ex_ordered) by reflexivity.
  assert (H2 : constructed ex_unordered) by reflexivity.
  assert (H3 : exists d, generate ex_ordered 3 0 = (Ok d, 0)) by (eexists; reflexivity).
  assert (H4 : generate ex_unordered 3 0 = (Err ValueError, 0)) by reflexivity.
  repeat (split; [assumption|]). split; [exact ex_well_behaved|].
  split. { destruct H3 as (d & H3). exact (C20_success_implies_topological _ _ _ _ _ H3). }
  split; [assumption|]. split; [|assumption].
  intros H. destruct (C20_topological ex_unordered 3 0 H2) as ((_ & Hb) & _); try discriminate.
  { intros v f _. apply ex_well_behaved. }
  destruct (Hb H) as (d & g' & E). rewrite H4 in E. discriminate E.
Qed.

(** ** C21 *)
Section C21.
  Context {V G : Type}.
  Implicit Types s : scm V G.

  (** recording the calls does not change the run; the calls made are those of a prefix of the
      variables, each with n and the latest samples of its parents *)
Theorem C21_calls : forall s n g, exists log,
    generate (logging s) n (g, []) = (fst (generate s n g), (snd (generate s n g), log)) /\
    (exists rest, s_vars s = map c_var log ++ rest) /\
    calls_follow_graph s n log.
  Proof.
    intros s n g.
    destruct (gen_loop_logging s n (s_vars s) [] g []) as (log & E & Hrest & Hcalls & Hr).
    { intros v a. cbn. split; [discriminate|]. intros ([|] & ? & ? & Ex & _); discriminate Ex. }
    exists log. split; [|split; [exact Hrest|]].
    - unfold generate. change (s_vars (logging s)) with (s_vars s). rewrite E. cbn [app].
      destruct (gen_loop s n (s_vars s) [] g) as [[r|e] g1]; reflexivity.
    - intros pre c post Ec. exact (Hcalls pre c post Ec).
  Qed.

  (** a successful run samples every variable once, in order, and returns the samples of the
      covariates side by side, of the treatment and of the response *)
Theorem C21_result : forall s n g d g', generate s n g = (Ok d, g') ->
    exists log, generate (logging s) n (g, []) = (Ok d, (g', log)) /\
      map c_var log = s_vars s /\ calls_follow_graph s n log /\
      exists cols x t y,
        Forall2 (latest log) (s_cov s) cols /\ side_by_side cols x /\
        latest log (s_trt s) t /\ latest log (s_rsp s) y /\
        dcov d = Some x /\ dexp d = Some t /\ drsp d = Some y /\
        n_units d = List.length (arows x) /\ n_features d = list_sum (map width cols).
  Proof.
    intros s n g d g' H. pose proof H as Hg.
    destruct (gen_loop_logging s n (s_vars s) [] g []) as (log & E & Hrest & Hcalls & Hr).
    { intros v a. cbn. split; [discriminate|]. intros ([|] & ? & ? & Ex & _); discriminate Ex. }
    apply generate_ok in H as (r & cols & x & t & y & El & Ec & Ex & Et & Ey & ->).
    rewrite El in E, Hr. cbn [fst snd app] in E, Hr. destruct (Hr r eq_refl) as (Hv & Hs).
    exists log. split.
    { unfold generate. change (s_vars (logging s)) with (s_vars s). rewrite E. cbn [bind logging s_cov s_trt s_rsp].
      rewrite Ec. cbn [bind]. rewrite Ex. cbn [bind]. unfold sfind. rewrite Et, Ey. reflexivity. }
    split; [exact Hv|]. split; [intros pre c post E'; exact (Hcalls pre c post E')|].
    pose proof (column_stack_ok cols x Ex) as Hside.
    exists cols, x, t, y. split.
    { apply mapM_sfind_Forall2 in Ec. clear - Ec Hs. induction Ec; constructor; auto. apply Hs. assumption. }
    split; [exact Hside|]. split; [apply Hs, Et|]. split; [apply Hs, Ey|].
    cbn. repeat split. destruct Hside as (_ & (tt & Hw & _) & _). unfold afeatures. rewrite Hw. reflexivity.
  Qed.
End C21.
Print Assumptions C21_calls.
Print Assumptions C21_result.

Example C21_case :
  (* three units, counter starting at 5 *)
  generate ex_scm 3 5 =
    (Ok (mkED (Some (mkArr [2] [[5; 11]; [6; 10]; [7; 11]]%Z))
              (Some (mkArr [] [[1]; [0]; [1]]%Z)) (Some (mkArr [] [[16]; [16]; [18]]%Z)) 3 2), 8) /\
  exists log, snd (snd (generate (logging ex_scm) 3 (5, []))) = log /\
    map c_var log = ex_vars /\
    map c_args log =
      [[]; [mkArr [] [[5]; [6]; [7]]%Z]; [mkArr [] [[1]; [0]; [1]]%Z];
       [mkArr [] [[11]; [10]; [11]]%Z; mkArr [] [[5]; [6]; [7]]%Z]].
Proof. split; [reflexivity|]. eexists. repeat split. Qed.

(** ** C22 *)
Section C22.
  Context {V G : Type}.
  Implicit Types s : scm V G.

Theorem C22_nondescendants_unaffected : forall s v f s' n g g' d d' g1 g1',
    replaces s v f s' ->
    (forall u h, entry (s_cpds s) u h -> functional h) ->
    generate s n g = (Ok d, g1) -> generate s' n g' = (Ok d', g1') ->
    (~ descendant s v (s_trt s) -> dexp d' = dexp d) /\
    (~ descendant s v (s_rsp s) -> drsp d' = drsp d) /\
    ((forall u, In u (s_cov s) -> ~ descendant s v u) -> dcov d' = dcov d).
  Proof.
    intros s v f s' n g g' d d' g1 g1' Hrep Hfun H H'.
    apply generate_ok in H as (r & cols & x & t & y & El & Ec & Ex & Et & Ey & ->).
    apply generate_ok in H' as (r' & cols' & x' & t' & y' & El' & Ec' & Ex' & Et' & Ey' & ->).
    pose proof Hrep as Hrep'. destruct Hrep' as (Rv & Rp & Rc & Rt & Rr & _).
    rewrite Rv in El'. rewrite Rc in Ec'. rewrite Rt in Et'. rewrite Rr in Ey'.
    assert (Hs : forall u, ~ descendant s v u -> sget r' u = sget r u).
    { eapply gen_loop_nondescendants; eauto. }
    cbn. split; [|split].
    - intros Hn. rewrite (Hs _ Hn) in Et'. congruence.
    - intros Hn. rewrite (Hs _ Hn) in Ey'. congruence.
    - intros Hn. assert (cols' = cols).
      { apply mapM_sfind_Forall2 in Ec, Ec'. clear - Ec Ec' Hn Hs.
        revert cols' Ec'. induction Ec as [|u a us cs Hu _ IH]; intros cols' Ec'; inversion Ec'; subst; [reflexivity|].
        f_equal; [rewrite (Hs u (Hn u (or_introl eq_refl))) in *; congruence|].
        apply IH; [intros w Hw; apply Hn; right; exact Hw|assumption]. }
      congruence.
  Qed.
End C22.
Print Assumptions C22_nondescendants_unaffected.

(** deterministic front-door CPDs: U is the unit number *)
Definition det_cpds : sdict (cpd Z nat) :=
  ("U"%string, fun n _ g => (Ok (vec (map Z.of_nat (seq 0 n))), g)) :: tl ex_cpds.
Definition det_scm : scm Z nat := mkScm "det" ex_vars ex_parents det_cpds ["U"]%string "X" "Y".
Definition det_do : scm Z nat := set_cpd det_scm "Z" (fun n _ g => (Ok (vec (repeat 100%Z n)), g)).

Lemma det_functional u h : entry (s_cpds det_scm) u h -> functional h.
Proof.
  intros H. apply entry_sget in H. cbn in H.
  repeat (match type of H with (if ?c then _ else _) = _ => destruct c end;
          [injection H as <-; intros n args g g'; reflexivity|]).
  discriminate H.
Qed.

(** neither U nor X descends from Z *)
Lemma det_descendants u : descendant det_scm "Z" u -> u = "Z"%string \/ u = "Y"%string.
Proof.
  intros H. apply clos_rt_rtn1 in H. induction H as [|v w (ps & He & Hp) _ IH]; [auto|].
  apply entry_sget in He. cbn [sget s_parents det_scm ex_parents] in He.
  repeat (match type of He with (if ?c then _ else _) = _ => destruct (c) eqn:E end;
          [injection He as <-; apply String.eqb_eq in E; subst w|clear E]); try discriminate He.
  - destruct Hp.
  - cbn in Hp. destruct Hp as [E|E]; [|destruct E]. subst v. destruct IH as [E|E]; discriminate E.
  - auto.
  - auto.
Qed.

Example C22_case :
  replaces det_scm "Z" (fun n _ g => (Ok (vec (repeat 100%Z n)), g)) det_do /\
  (forall u h, entry (s_cpds det_scm) u h -> functional h) /\
  ~ descendant det_scm "Z" (s_trt det_scm) /\
  (forall u, In u (s_cov det_scm) -> ~ descendant det_scm "Z" u) /\
  generate det_scm 3 0 =
    (Ok (mkED (Some (mkArr [1] [[0]; [1]; [2]]%Z)) (Some (mkArr [] [[0]; [1]; [0]]%Z))
              (Some (mkArr [] [[10]; [12]; [12]]%Z)) 3 1), 0) /\
  generate det_do 3 0 =
    (Ok (mkED (Some (mkArr [1] [[0]; [1]; [2]]%Z)) (Some (mkArr [] [[0]; [1]; [0]]%Z))
              (Some (mkArr [] [[100]; [101]; [102]]%Z)) 3 1), 0).
Proof.
  split; [apply set_cpd_replaces|]. split; [exact det_functional|].
  split. { intros H. apply det_descendants in H as [H|H]; discriminate H. }
  split. { intros u [<-|[]] H. apply det_descendants in H as [H|H]; discriminate H. }
  split; reflexivity.
Qed.

(** With CPDs that share the random stream this fails: replacing one variable's CPD by one that
    draws less shifts the stream of every later variable, related or not. *)
Definition noise_cpd : cpd Z nat := fun n _ g => (Ok (vec (map (fun i => Z.of_nat (g + i)) (seq 0 n))), g + n).
Definition stream_scm : scm Z nat :=
  mkScm "stream" ["A"; "B"]%string [("A", []); ("B", [])]%string
    [("A", noise_cpd); ("B", noise_cpd)]%string ["A"]%string "B" "B".
Theorem C22_shared_stream_refuted : exists (s s' : scm Z nat) v f n g d d' g1 g1',
  replaces s v f s' /\ functional f /\ ~ descendant s v (s_trt s) /\
  generate s n g = (Ok d, g1) /\ generate s' n g = (Ok d', g1') /\ dexp d' <> dexp d.
Proof.
  exists stream_scm, (set_cpd stream_scm "A" (fun n _ g => (Ok (vec (repeat 0%Z n)), g))), "A"%string,
    (fun n _ g => (Ok (vec (repeat 0%Z n)), g)), 2, 0.
  do 4 eexists. split; [apply set_cpd_replaces|]. split; [intros n args g g'; reflexivity|].
  split.
  { intros H. apply clos_rt_rtn1 in H. inversion H as [|v w (ps & He & Hp) Hr E].
    apply entry_sget in He. cbn in He. injection He as <-. destruct Hp. }
  split; [reflexivity|]. split; [reflexivity|]. discriminate.
Qed.
Print Assumptions C22_shared_stream_refuted.

(** ** C23 *)
Section C23.
  Context {V G : Type} (vone vzero : V) (effect : arr V -> arr V -> V).
  Implicit Types s : scm V G.

  Lemma self_deterministic_raises (value : V) n args (g : G) :
    self_deterministic_cpd value n args g = (Err AttributeError, g).
  Proof. reflexivity. Qed.

  Lemma constructed_treatment s : constructed s ->
    In (s_trt s) (s_vars s) /\ exists f, sget (s_cpds s) (s_trt s) = Some f.
  Proof.
    intros H. apply constructed_complete in H as (Ha & Ht & _). split; [exact Ht|].
    destruct (Ha _ Ht) as (_ & f & Hf). exists f. apply entry_sget, Hf.
  Qed.

  Lemma broken_generate s t n g d g' f :
    In t (s_vars s) -> entry (s_cpds s) t f ->
    (forall args g, exists e g', f n args g = (Err e, g')) ->
    generate s n g <> (Ok d, g').
  Proof.
    intros Hin Hf Hb H. apply generate_ok in H as (r & _ & _ & _ & _ & El & _).
    apply entry_sget in Hf. exact (gen_loop_broken s t f n Hf Hb _ _ _ _ _ Hin El).
  Qed.

  (** it always raises, and leaves a treatment CPD installed that raises AttributeError on every
      call; the rest of the SCM is as before *)
Theorem C23_never_returns : forall s n g, constructed s ->
    exists s' e g' f, compute_treatment_effect vone vzero effect s n g = ((s', Err e), g') /\
      replaces s (s_trt s) f s' /\
      forall m args h, f m args h = (Err AttributeError, h).
  Proof.
    intros s n g Hc. destruct (constructed_treatment s Hc) as (Hin & f & Hf).
    unfold compute_treatment_effect. rewrite Hf.
    set (s1 := set_cpd s (s_trt s) (self_deterministic_cpd vone)).
    destruct (generate s1 n g) as [[d|e] g1] eqn:E.
    - exfalso. refine (broken_generate s1 (s_trt s) n g d g1 (self_deterministic_cpd vone) Hin _ _ E).
      + apply entry_sget. cbn. rewrite sget_sset, String.eqb_refl. reflexivity.
      + intros args h. do 2 eexists. reflexivity.
    - exists s1, e, g1, (self_deterministic_cpd vone). split; [reflexivity|].
      split; [apply set_cpd_replaces|]. reflexivity.
  Qed.

  (** when ordinary generation works, the exception is AttributeError *)
Theorem C23_attribute_error : forall s n g d g1, constructed s ->
    generate s n g = (Ok d, g1) ->
    exists s' g', compute_treatment_effect vone vzero effect s n g = ((s', Err AttributeError), g').
  Proof.
    intros s n g d g1 Hc H. destruct (constructed_treatment s Hc) as (Hin & f & Hf).
    unfold compute_treatment_effect. rewrite Hf.
    apply generate_ok in H as (r & _ & _ & _ & _ & El & _).
    destruct (gen_loop_reaches s (s_trt s) (self_deterministic_cpd vone) _ n
                (set_cpd_replaces s (s_trt s) _)
                (fun args g => ex_intro _ g (self_deterministic_raises vone n args g))
                _ _ _ _ _ Hin El) as (g2 & E).
    unfold generate at 1. change (s_vars (set_cpd s (s_trt s) (self_deterministic_cpd vone))) with (s_vars s).
    rewrite E. eauto.
  Qed.

  (** afterwards no generate of this SCM, or of any other SCM given the same cpds dict and with
      this treatment among its variables, returns *)
Theorem C23_later_calls : forall s n g s' e g', constructed s ->
    compute_treatment_effect vone vzero effect s n g = ((s', Err e), g') ->
    forall other m h d h', s_cpds other = s_cpds s' -> In (s_trt s) (s_vars other) ->
      generate other m h <> (Ok d, h').
  Proof.
    intros s n g s' e g' Hc H other m h d h' Eo Hin.
    destruct (C23_never_returns s n g Hc) as (s2 & e2 & g2 & f & E & Hrep & Hf).
    rewrite E in H. injection H as -> _ _.
    apply (broken_generate other (s_trt s) m h d h' f Hin).
    - rewrite Eo. destruct Hrep as (_ & _ & _ & _ & _ & He & _). exact He.
    - intros args k. do 2 eexists. apply Hf.
  Qed.

  (** and where generation worked before, it now raises AttributeError *)
Theorem C23_later_attribute_error : forall s n g s' e g' m h d h1, constructed s ->
    compute_treatment_effect vone vzero effect s n g = ((s', Err e), g') ->
    generate s m h = (Ok d, h1) -> exists h', generate s' m h = (Err AttributeError, h').
  Proof.
    intros s n g s' e g' m h d h1 Hc H Hg.
    destruct (constructed_treatment s Hc) as (Hin & _).
    destruct (C23_never_returns s n g Hc) as (s2 & e2 & g2 & f & E & Hrep & Hf).
    rewrite E in H. injection H as -> _ _.
    apply generate_ok in Hg as (r & _ & _ & _ & _ & El & _).
    destruct (gen_loop_reaches s (s_trt s) f s' m Hrep (fun args k => ex_intro _ k (Hf m args k))
                _ _ _ _ _ Hin El) as (g3 & E3).
    exists g3. unfold generate. destruct Hrep as (Rv & _). rewrite Rv, E3. reflexivity.
  Qed.
End C23.
Print Assumptions C23_never_returns.
Print Assumptions C23_attribute_error.
Print Assumptions C23_later_calls.
Print Assumptions C23_later_attribute_error.

Example C23_case :
  constructed ex_scm /\ (exists d, generate ex_scm 3 5 = (Ok d, 8)) /\
  snd (fst (compute_treatment_effect 1%Z 0%Z (fun _ _ => 0%Z) ex_scm 3 5)) = Err AttributeError /\
  (* the generator has already moved on, and the SCM no longer works *)
  snd (compute_treatment_effect 1%Z 0%Z (fun _ _ => 0%Z) ex_scm 3 5) = 8 /\
  fst (generate (fst (fst (compute_treatment_effect 1%Z 0%Z (fun _ _ => 0%Z) ex_scm 3 5))) 3 5)
    = Err AttributeError.
Proof. split; [reflexivity|]. split; [eexists; reflexivity|]. repeat split. Qed.

(** ** C24 *)
Section C24.
  Context {V G : Type} (to_int : V -> res Z).

Theorem C24_index_too_large : forall (parents : list (arr V)) idx (dists : list (dist V G)) g,
    (Z.of_nat (List.length parents) <= idx)%Z ->
    categorical_conditioning to_int parents idx dists g = ((parents, Err ValueError), g).
  Proof.
    intros parents idx dists g H. unfold categorical_conditioning.
    apply Z.leb_le in H. rewrite H. reflexivity.
  Qed.

Theorem C24_index_too_small : forall (parents : list (arr V)) idx (dists : list (dist V G)) g,
    (idx < - Z.of_nat (List.length parents))%Z ->
    categorical_conditioning to_int parents idx dists g = ((parents, Err IndexError), g).
  Proof.
    intros parents idx dists g H. unfold categorical_conditioning.
    destruct (Z.leb_spec (Z.of_nat (List.length parents)) idx); [lia|].
    rewrite norm_index_err by lia. reflexivity.
  Qed.

  (** for an index of the list, the caller's list has lost that entry, also when an exception
      is raised later *)
Theorem C24_caller_list : forall (pre post : list (arr V)) c idx (dists : list (dist V G)) g,
    position (List.length (pre ++ c :: post)) idx (List.length pre) ->
    fst (fst (categorical_conditioning to_int (pre ++ c :: post) idx dists g)) = pre ++ post.
  Proof.
    intros pre post c idx dists g H. rewrite conditioning_split by exact H.
    destruct (cond_loop to_int (pre ++ post) dists (arows c) 0 g) as [[?|?] ?]; reflexivity.
  Qed.

  (** it returns exactly when every unit's draw succeeds in turn and all draws have one shape;
      row i of the result is then the draw of unit i *)
Theorem C24_samples : forall (pre post : list (arr V)) c idx (dists : list (dist V G)) g l a g',
    position (List.length (pre ++ c :: post)) idx (List.length pre) ->
    (categorical_conditioning to_int (pre ++ c :: post) idx dists g = ((l, Ok a), g') <->
     l = pre ++ post /\ exists xs, units_draw to_int (pre ++ post) dists (arows c) xs g g' /\
       arows a = map i_data xs /\ (forall x, In x xs -> i_shape x = atail a) /\
       (xs = [] -> atail a = [])).
  Proof.
    intros pre post c idx dists g l a g' H. rewrite conditioning_split by exact H. split.
    - destruct (cond_loop to_int (pre ++ post) dists (arows c) 0 g) as [[xs|e] g1] eqn:E;
        [|discriminate].
      intros [= <- Ea <-]. split; [reflexivity|]. exists xs. split; [apply cond_loop_units, E|].
      apply np_array_ok, Ea.
    - intros (-> & xs & Hu & Ha). apply cond_loop_units in Hu. rewrite Hu.
      apply np_array_ok in Ha. rewrite Ha. reflexivity.
  Qed.

  (** the first unit whose category has no distribution makes it raise IndexError, after the
      draws of the units before it *)
Theorem C24_unknown_category : forall (pre post : list (arr V)) c idx (dists : list (dist V G)) g
      ds1 v ds2 xs g1 k,
    position (List.length (pre ++ c :: post)) idx (List.length pre) ->
    arows c = ds1 ++ [v] :: ds2 ->
    units_draw to_int (pre ++ post) dists ds1 xs g g1 ->
    (forall p, In p (pre ++ post) -> List.length ds1 < List.length (arows p)) ->
    to_int v = Ok k -> (forall j, ~ position (List.length dists) k j) ->
    categorical_conditioning to_int (pre ++ c :: post) idx dists g =
      ((pre ++ post, Err IndexError), g1).
  Proof.
    intros pre post c idx dists g ds1 v ds2 xs g1 k H Ec Hu Hp Hk Hj.
    rewrite conditioning_split by exact H. rewrite Ec.
    apply cond_loop_units, cond_loop_chain in Hu.
    rewrite (cond_loop_prefix _ _ _ _ _ _ _ _ _ Hu). cbn [plus cond_loop].
    assert (Em := proj2 (mapM_aitem (List.length ds1) (pre ++ post) _) (conj Hp eq_refl)).
    rewrite Em. cbn [int_of bind]. rewrite Hk. cbn [bind].
    assert (El : lget dists k = Err IndexError).
    { unfold lget. destruct (norm_index (List.length dists) k) as [j|e] eqn:En.
      - apply norm_index_position in En. destruct (Hj _ En).
      - unfold norm_index in En.
        destruct ((- Z.of_nat (List.length dists) <=? k)%Z && (k <? Z.of_nat (List.length dists))%Z);
          [discriminate|]. injection En as <-. reflexivity. }
    rewrite El. reflexivity.
  Qed.
End C24.
Print Assumptions C24_index_too_large.
Print Assumptions C24_index_too_small.
Print Assumptions C24_caller_list.
Print Assumptions C24_samples.
Print Assumptions C24_unknown_category.

(** two distributions over pairs: (0, counter) and (1, first other parent) *)
Definition ex_dists : list (dist Z nat) :=
  [(fun _ _ g => (Ok (mkArr [2] [[0; Z.of_nat g]]%Z), S g));
   (fun _ items g => (Ok (mkArr [2] [[1; match items with i :: _ => hd 0%Z (i_data i) | [] => 0%Z end]]%Z), g))].
Example C24_case :
  let cond := vec [1; 0; 0; -1]%Z in
  let other := vec [7; 8; 9; 10]%Z in
  (* category -1 counts from the end *)
  categorical_conditioning Ok [cond; other] 0 ex_dists 5 =
    (([other], Ok (mkArr [2] [[1; 7]; [0; 5]; [0; 6]; [1; 10]]%Z)), 7) /\
  categorical_conditioning Ok [other; cond] (-1) ex_dists 5 =
    (([other], Ok (mkArr [2] [[1; 7]; [0; 5]; [0; 6]; [1; 10]]%Z)), 7) /\
  position 2 (-1) 1 /\
  categorical_conditioning Ok [cond; other] 2 ex_dists 5 = (([cond; other], Err ValueError), 5) /\
  categorical_conditioning Ok [cond; other] (-3) ex_dists 5 = (([cond; other], Err IndexError), 5) /\
  (* category 2 at unit 1 *)
  categorical_conditioning Ok [vec [0; 2]%Z; other] 0 ex_dists 5 = (([other], Err IndexError), 6) /\
  (forall j, ~ position 2 2 j).
Proof.
  cbv zeta. repeat split; try reflexivity; try lia. intros j [H1 H2]. lia.
Qed.
