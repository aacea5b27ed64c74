(** Sampling from the CPDs of Section 5.1. *)
From Coq Require Import String List Arith ZArith Reals Bool Lia Lra.
From Flocq Require Import Core.
From Verif Require Import PyBase PyLemmas Num NumLemmas NumOps DataModel ScmModel ScmProofs TabSpec TabReal ArmModel ParamModel ParamProofs5 PaperModel PaperSpec PaperProofs PaperProofs4 UtilModel UtilProps ExampleSpec ExampleProps CpdModel CpdSpec CpdProofs CpdProps SecSpec SecProofs SecProofs2 SecProofs3.
From Verif Require Import ScmSpec.
Import ListNotations.
Open Scope string_scope.
Open Scope nat_scope.

(** ** runs that cannot fail *)
Section Typed.
  Context {V G : Type} (s : scm V G) (n : nat) (P : string -> arr V -> Prop) (I : G -> Prop).
  Hypothesis Hc : constructed s.
  Hypothesis Ht : topological s.
  Hypothesis Hstep : forall v ps f args g, In v (s_vars s) -> entry (s_parents s) v ps -> entry (s_cpds s) v f ->
    Forall2 P ps args -> I g -> exists a g', f n args g = (Ok a, g') /\ P v a /\ I g'.

  Lemma sfind_typed (r : sdict (arr V)) ps : (forall u, In u ps -> exists a, sget r u = Some a /\ P u a) ->
    forallb (shas r) ps = true /\ exists args, mapM (sfind r) ps = Ok args /\ Forall2 P ps args.
  Proof.
    induction ps as [|u ps IH]; intros H; [split; [reflexivity|]; exists []; split; [reflexivity|constructor]|].
    destruct (H u (or_introl eq_refl)) as (a & Ea & Pa). destruct IH as (Hb & args & Em & HF); [intros x Hx; apply H; now right|].
    cbn [forallb mapM]. unfold shas at 1, sfind at 1. rewrite Ea. cbn [bind andb]. rewrite Em. split; [exact Hb|].
    exists (a :: args). split; [reflexivity|]. now constructor.
  Qed.
  Lemma gen_loop_typed : forall post pre r g, s_vars s = (pre ++ post)%list -> I g ->
    (forall u, In u pre -> exists a, sget r u = Some a /\ P u a) ->
    exists r' g', gen_loop s n post r g = (Ok r', g') /\ I g' /\ forall u, In u (s_vars s) -> exists a, sget r' u = Some a /\ P u a.
  Proof.
    pose proof (proj1 (constructed_complete s) Hc) as (Hall & _).
    induction post as [|v post IH]; intros pre r g Ev Hg Hr.
    - exists r, g. rewrite Ev, app_nil_r. auto.
    - assert (Hv : In v (s_vars s)) by (rewrite Ev; apply in_or_app; right; now left).
      destruct (Hall v Hv) as ((ps & Hps) & f & Hf). cbn [gen_loop].
      rewrite (proj1 (entry_sget _ _ _) Hps), (proj1 (entry_sget _ _ _) Hf).
      destruct (sfind_typed r ps) as (Hb & args & Em & HF).
      { intros u Hu. apply Hr. apply (Ht pre v post u Ev). exists ps. auto. }
      rewrite Hb, Em. cbn [negb]. destruct (Hstep v ps f args g Hv Hps Hf HF Hg) as (a & g1 & E & Pa & Ig1). rewrite E.
      apply (IH (pre ++ [v])%list); [now rewrite <- app_assoc|exact Ig1|].
      intros u Hu. destruct (String.eqb_spec u v) as [-> |Hne]; [exists a; split; [apply sget_same|exact Pa]|].
      rewrite sget_other by exact Hne. apply Hr. apply in_app_or in Hu as [Hu|[Hu|[]]]; [exact Hu|congruence].
  Qed.
  Lemma generate_typed g : I g -> (forall cols, Forall2 P (s_cov s) cols -> exists x, column_stack cols = Ok x) ->
    exists cols x t y g', generate s n g = (Ok (ed_init (Some x) (Some t) (Some y)), g') /\ I g'
      /\ Forall2 P (s_cov s) cols /\ column_stack cols = Ok x /\ P (s_trt s) t /\ P (s_rsp s) y.
  Proof.
    intros Hg Hs. pose proof (proj1 (constructed_complete s) Hc) as (_ & Htr & Hrs & Hcov).
    destruct (gen_loop_typed (s_vars s) [] [] g eq_refl Hg) as (r & g' & E & Ig & Hr); [intros u []|].
    unfold generate. rewrite E. destruct (sfind_typed r (s_cov s)) as (_ & cols & Em & HF); [intros u Hu; apply Hr, Hcov, Hu|].
    rewrite Em. cbn [bind]. destruct (Hs cols HF) as (x & Ex). rewrite Ex. cbn [bind].
    destruct (Hr _ Htr) as (t & Et & Pt), (Hr _ Hrs) as (y & Ey & Py). unfold sfind. rewrite Et, Ey. cbn [bind].
    exists cols, x, t, y, g'. auto 10.
  Qed.
End Typed.

Section Logged.
  Context {V G : Type} (s : scm V G) (n : nat) (P : string -> arr V -> Prop).
  Hypothesis Hc : constructed s.
  Hypothesis Ht : topological s.
  Hypothesis Hstep : forall v ps f args g, In v (s_vars s) -> entry (s_parents s) v ps -> entry (s_cpds s) v f ->
    Forall2 P ps args -> exists a g', f n args g = (Ok a, g') /\ P v a.
  Definition good (st : G * list (call V)) : Prop := Forall (fun c => forall a, c_out c = Ok a -> P (c_var c) a) (snd st).
  Lemma logged_sget (d : sdict (cpd V G)) v : sget (map (fun vf => (fst vf, logged (fst vf) (snd vf))) d) v = option_map (logged v) (sget d v).
  Proof.
    induction d as [|(k, f) d IH]; [reflexivity|]. cbn [map fst snd sget]. destruct (String.eqb_spec v k) as [-> |]; [reflexivity|exact IH].
  Qed.
  Lemma logging_constructed : constructed (logging s).
  Proof.
    apply constructed_complete. apply constructed_complete in Hc as (Ha & Htr & Hrs & Hcov). cbn [logging s_vars s_parents s_cpds s_cov s_trt s_rsp].
    split; [|auto]. intros v Hv. destruct (Ha v Hv) as (Hp & f & Hf). split; [exact Hp|]. exists (logged v f).
    apply entry_sget. rewrite logged_sget. apply entry_sget in Hf. now rewrite Hf.
  Qed.
  Lemma generate_logged g : (forall cols, Forall2 P (s_cov s) cols -> exists x, column_stack cols = Ok x) ->
    exists cols x t y g' log, generate (logging s) n (g, []) = (Ok (ed_init (Some x) (Some t) (Some y)), (g', log))
      /\ (forall v a, latest log v a -> P v a)
      /\ Forall2 P (s_cov s) cols /\ column_stack cols = Ok x /\ P (s_trt s) t /\ P (s_rsp s) y.
  Proof.
    intros Hcols. destruct (generate_typed (logging s) n P good) with (g := (g, @nil (call V))) as (cols & x & t & y & (g' & log) & E & Hg & Hx).
    - exact logging_constructed.
    - exact Ht.
    - intros v ps f args st Hv Hps Hf HF Hst. apply entry_sget in Hf. cbn [logging s_cpds] in Hf. rewrite logged_sget in Hf.
      destruct (sget (s_cpds s) v) as [f0|] eqn:E0; [|discriminate]. injection Hf as <-. apply entry_sget in E0.
      destruct (Hstep v ps f0 args (fst st) Hv Hps E0 HF) as (a & g1 & Ea & Pa). unfold logged. rewrite Ea. do 2 eexists. split; [reflexivity|].
      split; [exact Pa|]. apply Forall_app. split; [exact Hst|]. constructor; [|constructor]. cbn. intros b [= <-]. exact Pa.
    - constructor.
    - exact Hcols.
    - exists cols, x, t, y, g', log. split; [exact E|]. split; [|exact Hx]. intros v a (pre & c & post & -> & <- & Eo & _).
      apply (proj1 (Forall_forall _ _) Hg c); [cbn; apply in_or_app; right; now left|exact Eo].
  Qed.
End Logged.

(** ** samples of Section 5.1 *)
Open Scope R_scope.
Section Samples.
  Context {G : Type} (w : cpd_world X G) (zd vd : list nat) (m n : nat) (L : law) (d : sdict (cpd X G)).
  Hypothesis Hw : regular w.
  Hypothesis HL : law_fits zd vd m L.
  Hypothesis Hd : follows w zd vd m L d.
  Hypothesis Hm : (1 <= m)%nat.
  Hypothesis Hn : (1 <= n)%nat.
  Hypothesis Hdim : forall i, (1 <= i <= m)%nat -> (1 <= nth i zd 0%nat)%nat /\ (1 <= nth i vd 0%nat)%nat.
  Notation ST := (sample_type zd vd m n).

  Lemma ST_V i a : ST (Vn i) a -> exists rows, matrix n (nth i vd 0%nat) rows /\ a = sarr (nth i vd 0%nat, rows).
  Proof.
    intros H. remember (Vn i) as v eqn:E. destruct H as [j rows Hj Hr|j rows Hj Hr|bs Hb|ys Hy]; [|discriminate|discriminate|discriminate].
    apply Vn_inj in E. subst j. exists rows. auto.
  Qed.
  Lemma ST_Z i a : ST (Zn i) a -> exists rows, matrix n (nth i zd 0%nat) rows /\ a = sarr (nth i zd 0%nat, rows).
  Proof.
    intros H. remember (Zn i) as v eqn:E. destruct H as [j rows Hj Hr|j rows Hj Hr|bs Hb|ys Hy]; [discriminate| |discriminate|discriminate].
    apply Zn_inj in E. subst j. exists rows. auto.
  Qed.
  Lemma ST_X a : ST "X" a -> exists bs, length bs = n /\ a = vec (zos bs).
  Proof. intros H. remember "X" as v eqn:E. destruct H as [j rows Hj Hr|j rows Hj Hr|bs Hb|ys Hy]; try discriminate. eauto. Qed.
  Lemma ST_Y a : ST "Y" a -> exists ys, length ys = n /\ a = rvec ys.
  Proof. intros H. remember "Y" as v eqn:E. destruct H as [j rows Hj Hr|j rows Hj Hr|bs Hb|ys Hy]; try discriminate. eauto. Qed.

  (** the arguments of a CPD whose parents are matrices *)
  Lemma ST_args (names : nat -> string) (dims : nat -> nat) : (forall i a, ST (names i) a -> exists rows, matrix n (dims i) rows /\ a = sarr (dims i, rows)) ->
    forall l args, Forall2 ST (map names l) args -> exists ps, args = map sarr ps /\ samples_of n ps /\ map fst ps = map dims l.
  Proof.
    intros H l. induction l as [|i l IH]; intros args HF; inversion HF as [|? a ? args' Ha HF' E1 E2]; subst.
    - exists []. split; [reflexivity|]. split; [constructor|reflexivity].
    - destruct (H i a Ha) as (rows & Hr & ->). destruct (IH args' HF') as (ps & -> & Hs & E). exists ((dims i, rows) :: ps).
      split; [reflexivity|]. split; [constructor; assumption|]. cbn [map fst]. now rewrite E.
  Qed.

  Lemma draws_exist bs : forall g, exists rows g', z0_draws w L bs g rows g' /\ matrix (length bs) (nth 0 zd 0%nat) rows.
  Proof.
    induction bs as [|b bs IH]; intros g; [exists [], g; split; [constructor|split; [reflexivity|constructor]]|].
    destruct (lf_prob _ _ _ _ HL b) as (Hl & Hp & Hs).
    destruct (rg_choice w Hw (lw_prob L b) 1 g) as (idx & g1 & E & Hi & HF).
    { eapply Forall_impl; [|exact Hp]. cbn. intros x Hx. lra. } { exact Hs. }
    destruct idx as [|i [|]]; try discriminate. inversion HF as [|? ? Hi' _]; subst. rewrite Hl in Hi'.
    destruct (IH g1) as (rows & g2 & Hz & Hr). exists (nth i (lw_support L) [] :: rows), g2. split; [now econstructor; eauto|].
    destruct Hr as [Hr1 Hr2]. split; [cbn; now rewrite Hr1|]. constructor; [|exact Hr2].
    destruct (lf_support _ _ _ _ HL) as [S1 S2]. apply (proj1 (Forall_forall _ _) S2). apply nth_In. lia.
  Qed.

  Lemma step51 s : paper_scm m d = Ok s -> forall v ps f args g, In v (s_vars s) -> entry (s_parents s) v ps -> entry (s_cpds s) v f ->
    Forall2 ST ps args -> exists a g', f n args g = (Ok a, g') /\ ST v a.
  Proof.
    intros Es v ps f args g Hv Hps Hf HF. pose proof (paper_scm_inv _ _ _ Es) as (Hent & Ecp).
    destruct (paper_scm_ok m d Hent) as (s' & Es' & _ & Evs & _ & _ & _ & _ & P0 & PX & PY & PV & PZ). rewrite Es in Es'. injection Es' as <-.
    rewrite Ecp in Hf. rewrite Evs in Hv. apply paper_vars_in in Hv. apply entry_sget in Hps. destruct Hv as [| | |i Hi|i Hi].
    - rewrite PX in Hps. injection Hps as <-.
      destruct (ST_args Vn (fun i => nth i vd 0%nat) ST_V _ _ HF) as (qs & -> & Hs & Eq).
      destruct (rg_binom w Hw (map (fun j => sigm (linear j qs (map (lw_gamma L) (seq 1 m)))) (seq 0 n)) g) as (xs & g' & E & Hx).
      { apply Forall_forall. intros x Hx. apply in_map_iff in Hx as (j & <- & _). pose proof (sigm_open (linear j qs (map (lw_gamma L) (seq 1 m)))). lra. }
      rewrite map_map in E. rewrite map_length, seq_length in Hx. exists (vec (zos xs)), g'. split; [|now constructor].
      apply (fo_X _ _ _ _ _ _ Hd f Hf n n qs g (zos xs) g' Eq Hs E). unfold zos. now rewrite map_length.
    - rewrite PY in Hps. injection Hps as <-. change ("Z0" :: map Zn (seq 1 m)) with (map Zn (seq 0 (S m))) in HF.
      destruct (ST_args Zn (fun i => nth i zd 0%nat) ST_Z _ _ HF) as (qs & -> & Hs & Eq).
      destruct (rg_normal w Hw (repeat 0 n) (repeat (sqrt (1/10)) n) g) as (es & g' & E & He).
      { apply Forall_forall. intros x Hx. apply repeat_spec in Hx. subst x. apply sqrt_pos. } { now rewrite !repeat_length. }
      rewrite <- !repeat_fin in E. rewrite repeat_length in He.
      destruct (fo_Y _ _ _ _ _ _ Hd f Hf n n qs g es g' Eq Hs E He) as (ys & Ey & Hl & _). exists (rvec ys), g'. split; [exact Ey|now constructor].
    - rewrite P0 in Hps. injection Hps as <-. inversion HF as [|? a ? args' Ha HF' E1 E2]; subst. inversion HF'; subst.
      destruct (ST_X a Ha) as (bs & Hb & ->). destruct (draws_exist bs g) as (rows & g' & Hz & Hr).
      exists (rmat (nth 0 zd 0%nat) rows), g'. split; [apply (fo_Z0 _ _ _ _ _ _ Hd f Hf n bs g rows g'); [|exact Hz]|].
      + intros ->. cbn in Hb. lia.
      + rewrite Hb in Hr. change "Z0" with (Zn 0). apply st_Z; [lia|exact Hr].
    - rewrite (PV i Hi) in Hps. injection Hps as <-. inversion HF; subst. destruct (Hdim i Hi) as [_ Hk].
      destruct (rg_mvnormal w Hw (repeat 0 (nth i vd 0%nat)) (diagonal 1 (nth i vd 0%nat)) n g) as (es & g' & E & He).
      { now rewrite repeat_length. } { rewrite repeat_length. apply diagonal_matrix. }
      rewrite repeat_length in He. exists (rmat (nth i vd 0%nat) es), g'. split; [|now constructor].
      apply (fo_V _ _ _ _ _ _ Hd i f Hi Hf n [] g es g' E).
    - rewrite (PZ i Hi) in Hps. injection Hps as <-. inversion HF as [|? a ? args' Ha HF' E1 E2]; subst. inversion HF'; subst.
      destruct (ST_V i a Ha) as (rows & Hr & ->). destruct (Hdim i Hi) as [Hk _].
      destruct (rg_mvnormal w Hw (repeat 0 (nth i zd 0%nat)) (diagonal (1/10) (nth i zd 0%nat)) n g) as (es & g' & E & He).
      { now rewrite repeat_length. } { rewrite repeat_length. apply diagonal_matrix. }
      rewrite repeat_length in He.
      destruct (fo_Z _ _ _ _ _ _ Hd i f Hi Hf n n (nth i vd 0%nat, rows) g es g' eq_refl) as (ys & Ey & Hy & _).
      { constructor; [exact Hr|constructor]. } { exact E. } { exact He. }
      exists (rmat (nth i zd 0%nat) ys), g'. split; [exact Ey|]. apply st_Z; [lia|exact Hy].
  Qed.

  (** the covariates side by side *)
  Lemma layout_args cols : Forall2 ST (layout m) cols -> exists ps, cols = map sarr ps /\ samples_of n ps
    /\ map fst ps = nth 0 zd 0%nat :: flat_map (fun i => [nth i vd 0%nat; nth i zd 0%nat]) (seq 1 m).
  Proof.
    unfold layout. intros HF. inversion HF as [|? a ? cols' Ha HF' E1 E2]; subst. change "Z0" with (Zn 0) in Ha.
    destruct (ST_Z 0 a Ha) as (rows & Hr & ->).
    enough (H : exists ps, cols' = map sarr ps /\ samples_of n ps /\ map fst ps = flat_map (fun i => [nth i vd 0%nat; nth i zd 0%nat]) (seq 1 m)).
    { destruct H as (ps & -> & Hs & E). exists ((nth 0 zd 0%nat, rows) :: ps). split; [reflexivity|]. split; [constructor; assumption|]. cbn [map fst]. now rewrite E. }
    clear HF Ha Hr. revert cols' HF'. induction (seq 1 m) as [|i l IH]; intros cols HF; cbn [flat_map app] in *.
    - inversion HF; subst. exists []. split; [reflexivity|]. split; [constructor|reflexivity].
    - inversion HF as [|? a ? cols1 Ha HF1 E1 E2]; subst. inversion HF1 as [|? b ? cols2 Hb HF2 E1 E2]; subst.
      destruct (ST_V i a Ha) as (r1 & Hr1 & ->), (ST_Z i b Hb) as (r2 & Hr2 & ->). destruct (IH cols2 HF2) as (ps & -> & Hs & E).
      exists ((nth i vd 0%nat, r1) :: (nth i zd 0%nat, r2) :: ps). split; [reflexivity|]. split; [constructor; [exact Hr1|constructor; [exact Hr2|exact Hs]]|]. cbn [map fst]. now rewrite E.
  Qed.
End Samples.
