(** Sampling from the CPDs of Section 5.2. *)
From Coq Require Import String List Arith ZArith Reals Bool Lia Lra.
From Flocq Require Import Core.
From Verif Require Import PyBase PyLemmas Num NumLemmas NumOps DataModel ScmModel ScmProofs TabSpec TabReal ArmModel ParamModel ParamProofs5 PaperModel PaperSpec PaperProofs PaperProofs4 UtilModel UtilProps ExampleSpec ExampleProps CpdModel CpdSpec CpdProofs CpdProps SecSpec SecSpec2 SecProofs SecProofs2 SecProofs3 SecProofs4 SecProofs5 SecProofs6.
From Verif Require Import ScmSpec.
Import ListNotations.
Open Scope string_scope.
Open Scope nat_scope.

(** ** runs that must fail *)
Section Failing.
  Context {V G : Type} (s : scm V G) (n : nat) (P : string -> arr V -> Prop) (bad : string -> Prop) (e : exn).
  Hypothesis Hc : constructed s.
  Hypothesis Ht : topological s.
  Hypothesis Hstep : forall v ps f args g, In v (s_vars s) -> entry (s_parents s) v ps -> entry (s_cpds s) v f ->
    Forall2 P ps args -> (bad v /\ exists g', f n args g = (Err e, g')) \/ (~ bad v /\ exists a g', f n args g = (Ok a, g') /\ P v a).
  Lemma gen_loop_fails : forall post pre r g, s_vars s = (pre ++ post)%list -> (exists v, In v post /\ bad v) ->
    (forall u, In u pre -> exists a, sget r u = Some a /\ P u a) -> exists g', gen_loop s n post r g = (Err e, g').
  Proof.
    pose proof (proj1 (constructed_complete s) Hc) as (Hall & _).
    induction post as [|v post IH]; intros pre r g Ev (b & Hb & Bb) Hr; [destruct Hb|].
    assert (Hv : In v (s_vars s)) by (rewrite Ev; apply in_or_app; right; now left).
    destruct (Hall v Hv) as ((ps & Hps) & f & Hf). cbn [gen_loop].
    rewrite (proj1 (entry_sget _ _ _) Hps), (proj1 (entry_sget _ _ _) Hf).
    destruct (sfind_typed P r ps) as (Hbb & args & Em & HF).
    { intros u Hu. apply Hr. apply (Ht pre v post u Ev). exists ps. auto. }
    rewrite Hbb, Em. cbn [negb]. destruct (Hstep v ps f args g Hv Hps Hf HF) as [(Bv & g1 & E)|(Bv & a & g1 & E & Pa)]; rewrite E; [eauto|].
    apply (IH (pre ++ [v])%list); [now rewrite <- app_assoc| |].
    - exists b. split; [|exact Bb]. destruct Hb as [->|Hb]; [contradiction|exact Hb].
    - intros u Hu. destruct (String.eqb_spec u v) as [-> |Hne]; [exists a; split; [apply sget_same|exact Pa]|].
      rewrite sget_other by exact Hne. apply Hr. apply in_app_or in Hu as [Hu|[Hu|[]]]; [exact Hu|congruence].
  Qed.
  Lemma generate_fails g : (exists v, In v (s_vars s) /\ bad v) -> exists g', generate s n g = (Err e, g').
  Proof.
    intros Hb. destruct (gen_loop_fails (s_vars s) [] [] g eq_refl Hb) as (g' & E); [intros u []|]. unfold generate. rewrite E. eauto.
  Qed.
End Failing.

Open Scope R_scope.
Section Samples2.
  Context {G M : Type} (w : cpd_world X G) (gpr : gp X M) (fitted : nat -> M -> Prop) (value : M -> list R -> R).
  Hypothesis Hw : regular w.
  Hypothesis Hg : real_gp gpr fitted value.
  Variables (zd vd : list nat) (m n : nat) (S0 : list (list R)) (p0 p1 : list R) (fy fx : list M) (h : nat -> M) (d : sdict (cpd X G)).
  Hypothesis Hz : (1 <= m < length zd)%nat.
  Hypothesis Hv : (m < length vd)%nat.
  Hypothesis Dz : Forall (fun d => (1 <= d)%nat) zd.
  Hypothesis Dv : Forall (fun d => (1 <= d)%nat) (tl vd).
  Hypothesis Hn : (1 <= n)%nat.
  Hypothesis HS : matrix 10 (nth 0 zd 0%nat) S0.
  Hypothesis D0 : is_distribution 10 p0.
  Hypothesis D1 : is_distribution 10 p1.
  Hypothesis Fy : Forall2 fitted zd fy.
  Hypothesis Fx : Forall2 fitted (tl vd) fx.
  Hypothesis HX : sget d "X" = Some (x_cpd2 xreal w gpr (map (fun m => (1%nat, [m])) fx)).
  Hypothesis HY : sget d "Y" = Some (y_cpd2 xreal w gpr (map (fun m => (1%nat, [m])) fy)).
  Hypothesis HZ : sget d "Z0" = Some (z0_cpd xreal w (map (map Fin) S0) (nth 0 zd 0%nat) (map Fin p0, map Fin p1)).
  Hypothesis HP : forall i, (1 <= i <= m)%nat -> fitted (nth i vd 0%nat) (h i)
     /\ sget d (Vn i) = Some (v_cpd w (VArr (rvec (repeat 0 (nth i vd 0%nat)))) (VArr (rmat (nth i vd 0%nat) (diagonal 1 (nth i vd 0%nat)))))
     /\ sget d (Zn i) = Some (z_cpd2 xreal w gpr (nth i zd 0%nat, repeat (h i) (nth i zd 0%nat))
                                 (VArr (rvec (repeat 0 (nth i zd 0%nat)))) (VArr (rmat (nth i zd 0%nat) (diagonal (1/10) (nth i zd 0%nat))))).
  Notation ST := (sample_type zd vd m n).
  Definition long (v : string) : Prop := (v = "X" /\ (S m < length vd)%nat) \/ (v = "Y" /\ (S m < length zd)%nat).

  Let L : law := mkLaw (fun _ => []) (fun _ => []) (fun _ => []) S0 (fun b : bool => if b then p1 else p0).
  Lemma draws_exist2 bs : forall g, exists rows g', z0_draws w L bs g rows g' /\ matrix (length bs) (nth 0 zd 0%nat) rows.
  Proof.
    induction bs as [|b bs IH]; intros g; [exists [], g; split; [constructor|split; [reflexivity|constructor]]|].
    assert (Hd : is_distribution 10 (lw_prob L b)) by (destruct b; assumption). destruct Hd as (Hl & Hp & Hs).
    destruct (rg_choice w Hw (lw_prob L b) 1 g) as (idx & g1 & E & Hi & HF).
    { eapply Forall_impl; [|exact Hp]. cbn. intros x Hx. lra. } { exact Hs. }
    destruct idx as [|i [|]]; try discriminate. inversion HF as [|? ? Hi' _]; subst. rewrite Hl in Hi'.
    destruct (IH g1) as (rows & g2 & Hzz & Hr). exists (nth i (lw_support L) [] :: rows), g2. split; [now econstructor; eauto|].
    destruct Hr as [Hr1 Hr2]. split; [cbn; now rewrite Hr1|]. constructor; [|exact Hr2].
    destruct HS as [S1 S2]. apply (proj1 (Forall_forall _ _) S2). apply nth_In. cbn [L lw_support]. lia.
  Qed.

  Lemma vpos i : (1 <= i <= m)%nat -> (1 <= nth i vd 0%nat)%nat.
  Proof.
    intros Hi. clear - Hv Dv Hi. destruct vd as [|v0 vd']; [cbn in Hv; lia|]. destruct i as [|i]; [lia|]. cbn [nth tl length] in *. apply nth_pos; [exact Dv|lia].
  Qed.
  Lemma prefix_fitted (dims : list nat) (ms : list M) (k : nat) : Forall2 fitted dims ms -> (k <= length dims)%nat ->
    Forall2 fitted (map (fun i => nth i dims 0%nat) (seq 0 k)) (firstn k ms).
  Proof.
    clear. intros HF. revert k. induction HF as [|a b dims ms Hab HF IH]; intros [|k] Hk; cbn [length] in Hk; try lia; try (cbn; constructor).
    - exact Hab.
    - cbn [firstn]. rewrite <- seq_shift, map_map. apply IH. lia.
  Qed.
  Lemma prefix_fitted1 : Forall2 fitted (map (fun i => nth i vd 0%nat) (seq 1 m)) (firstn m fx).
  Proof.
    pose proof (prefix_fitted (tl vd) fx m Fx) as H. clear - H Hv. destruct vd as [|v0 vd']; [cbn in Hv; lia|]. cbn [tl length] in *.
    rewrite <- seq_shift, map_map. apply H. lia.
  Qed.

  Lemma step52 s : paper_scm m d = Ok s -> forall v ps f args g, In v (s_vars s) -> entry (s_parents s) v ps -> entry (s_cpds s) v f ->
    Forall2 ST ps args -> (long v /\ exists g', f n args g = (Err IndexError, g')) \/ (~ long v /\ exists a g', f n args g = (Ok a, g') /\ ST v a).
  Proof.
    intros Es v ps f args g Hin Hps Hf HF. pose proof (paper_scm_inv _ _ _ Es) as (Hent & Ecp).
    destruct (paper_scm_ok m d Hent) as (s' & Es' & _ & Evs & _ & _ & _ & _ & P0 & PX & PY & PV & PZ). rewrite Es in Es'. injection Es' as <-.
    rewrite Ecp in Hf. apply entry_sget in Hf. rewrite Evs in Hin. apply paper_vars_in in Hin. apply entry_sget in Hps. destruct Hin as [| | |i Hi|i Hi].
    - rewrite PX in Hps. injection Hps as <-. rewrite HX in Hf. injection Hf as <-.
      destruct (ST_args zd vd m n Vn (fun i => nth i vd 0%nat) (ST_V zd vd m n) _ _ HF) as (qs & -> & Hs & Eq).
      assert (Lq : length qs = m) by (apply (f_equal (@length nat)) in Eq; now rewrite !map_length, seq_length in Eq).
      pose proof prefix_fitted1 as Fp. rewrite <- Eq in Fp. pose proof (Forall2_length' _ _ _ Fx) as Lx.
      destruct (le_lt_dec (length vd) (S m)) as [Hle|Hlt]; [right|left].
      + split; [intros [[_ H]|[H _]]; [lia|discriminate]|].
        rewrite firstn_all2 in Fp by (rewrite <- Lx; destruct vd; cbn [tl length] in *; lia). apply Forall2_map_fst in Fp.
        destruct (rg_binom w Hw (map (fun j => sigm (additive j qs (map value fx))) (seq 0 n)) g) as (xs & g' & E & Hx).
        { apply Forall_forall. intros x Hx. apply in_map_iff in Hx as (j & <- & _). pose proof (sigm_open (additive j qs (map value fx))). lra. }
        rewrite map_map in E. rewrite map_length, seq_length in Hx. exists (vec (zos xs)), g'. split; [|now constructor].
        apply (x_cpd2_x w gpr fitted value Hg) with n; try assumption; [intros ->; cbn in Lq; lia|]. unfold zos. now rewrite map_length.
      + split; [left; split; [reflexivity|exact Hlt]|]. exists g. unfold x_cpd2.
        rewrite (sum_rfuns_short gpr fitted value Hg n qs Hs Hn fx); [reflexivity|now rewrite Lq|]. rewrite Lq, <- Lx. destruct vd; cbn [tl length] in *; lia.
    - rewrite PY in Hps. injection Hps as <-. rewrite HY in Hf. injection Hf as <-. change ("Z0" :: map Zn (seq 1 m)) with (map Zn (seq 0 (S m))) in HF.
      destruct (ST_args zd vd m n Zn (fun i => nth i zd 0%nat) (ST_Z zd vd m n) _ _ HF) as (qs & -> & Hs & Eq).
      assert (Lq : length qs = S m) by (apply (f_equal (@length nat)) in Eq; now rewrite !map_length, seq_length in Eq).
      pose proof (prefix_fitted zd fy (S m) Fy ltac:(lia)) as Fp. rewrite <- Eq in Fp. pose proof (Forall2_length' _ _ _ Fy) as Ly.
      destruct (le_lt_dec (length zd) (S m)) as [Hle|Hlt]; [right|left].
      + split; [intros [[H _]|[_ H]]; [discriminate|lia]|].
        rewrite firstn_all2 in Fp by lia. apply Forall2_map_fst in Fp.
        destruct (rg_normal w Hw (repeat 0 n) (repeat (sqrt (1/10)) n) g) as (es & g' & E & He).
        { apply Forall_forall. intros x Hx. apply repeat_spec in Hx. subst x. apply sqrt_pos. } { now rewrite !repeat_length. }
        rewrite <- !repeat_fin in E. rewrite repeat_length in He.
        destruct (y_cpd2_x w gpr fitted value Hg n qs fy n g es g' Hs Hn) as (ys & Ey & Hl & _); try assumption; [intros ->; discriminate|].
        exists (rvec ys), g'. split; [exact Ey|now constructor].
      + split; [right; split; [reflexivity|exact Hlt]|]. exists g. unfold y_cpd2.
        rewrite (sum_rfuns_short gpr fitted value Hg n qs Hs Hn fy); [reflexivity|now rewrite Lq|lia].
    - right. split; [intros [[H _]|[H _]]; discriminate|].
      rewrite P0 in Hps. injection Hps as <-. rewrite HZ in Hf. injection Hf as <-. inversion HF as [|? a ? args' Ha HF' E1 E2]; subst. inversion HF'; subst.
      destruct (ST_X zd vd m n a Ha) as (bs & Hb & ->). destruct (draws_exist2 bs g) as (rows & g' & Hzz & Hr).
      exists (rmat (nth 0 zd 0%nat) rows), g'. split; [apply (z0_cpd_draws w L (nth 0 zd 0%nat) HS n bs g rows g'); [|exact Hzz]|].
      + intros ->. cbn in Hb. lia.
      + rewrite Hb in Hr. change "Z0" with (Zn 0). apply st_Z; [lia|exact Hr].
    - right. split; [intros [[H _]|[H _]]; discriminate|].
      rewrite (PV i Hi) in Hps. injection Hps as <-. inversion HF; subst. destruct (HP i Hi) as (_ & H & _). rewrite H in Hf. injection Hf as <-.
      destruct (rg_mvnormal w Hw (repeat 0 (nth i vd 0%nat)) (diagonal 1 (nth i vd 0%nat)) n g) as (es & g' & E & He).
      { rewrite repeat_length. now apply vpos. } { rewrite repeat_length. apply diagonal_matrix. }
      rewrite repeat_length in He. exists (rmat (nth i vd 0%nat) es), g'. split; [|now constructor]. unfold v_cpd.
      pose proof (mv_noise_x w (repeat 0 (nth i vd 0%nat)) (diagonal 1 (nth i vd 0%nat)) n g es g') as Em. rewrite repeat_length in Em.
      rewrite Em; [reflexivity|apply diagonal_matrix|exact E].
    - right. split; [intros [[H _]|[H _]]; discriminate|].
      rewrite (PZ i Hi) in Hps. injection Hps as <-. inversion HF as [|? a ? args' Ha HF' E1 E2]; subst. inversion HF'; subst.
      destruct (HP i Hi) as (Fi & _ & H). rewrite H in Hf. injection Hf as <-.
      destruct (ST_V zd vd m n i a Ha) as (rows & Hr & ->). assert (Hk : (1 <= nth i zd 0%nat)%nat) by (apply nth_pos; [exact Dz|lia]).
      destruct (rg_mvnormal w Hw (repeat 0 (nth i zd 0%nat)) (diagonal (1/10) (nth i zd 0%nat)) n g) as (es & g' & E & He).
      { now rewrite repeat_length. } { rewrite repeat_length. apply diagonal_matrix. }
      rewrite repeat_length in He.
      destruct (z_cpd2_x w gpr fitted value Hg n n (nth i vd 0%nat, rows) (h i) (nth i zd 0%nat) g es g') as (ys & Ey & Hy & _); try assumption.
      { constructor; [exact Hr|constructor]. }
      exists (rmat (nth i zd 0%nat) ys), g'. split; [exact Ey|]. apply st_Z; [lia|exact Hy].
  Qed.
End Samples2.
