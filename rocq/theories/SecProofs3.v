(** The CPDs of Section 5.1 follow the structural equations; sampling from them. *)
From Coq Require Import String List Arith ZArith Reals Bool Lia Lra.
From Flocq Require Import Core.
From Verif Require Import PyBase PyLemmas Num NumLemmas NumOps DataModel ScmModel ScmSpec ScmProofs TabSpec TabReal ArmModel ParamModel ParamProofs5 PaperModel PaperSpec PaperProofs PaperProofs4 UtilModel UtilProps ExampleSpec ExampleProps CpdModel CpdSpec CpdProofs CpdProps SecSpec SecProofs SecProofs2.
From Verif Require Import ScmSpec.
Import ListNotations.
Open Scope string_scope.
Open Scope nat_scope.
Open Scope R_scope.

(** ** Z0 *)
Lemma trunc_zo b : trunc xreal (Fin (zo b)) = Ok (if b then 1%Z else 0%Z).
Proof.
  unfold trunc. rewrite nint_x. cbn [xreal nltb xltb]. unfold xltb. destruct b; cbn [zo].
  - destruct (Rlt_dec 1 0); [lra|]. cbn [xreal nfloor]. unfold x_floor. now rewrite (Zfloor_IZR 1).
  - destruct (Rlt_dec 0 0); [lra|]. cbn [xreal nfloor]. unfold x_floor. now rewrite (Zfloor_IZR 0).
Qed.
Section Z0.
  Context {G : Type} (w : cpd_world X G).
  Variables (L : law) (d0 : nat).
  Hypothesis HS : matrix 10 d0 (lw_support L).
  Let dists : list (dist X G) := [z0x_cpd w (map (map Fin) (lw_support L)) d0 (map Fin (lw_prob L false));
                                  z0x_cpd w (map (map Fin) (lw_support L)) d0 (map Fin (lw_prob L true))].
  Lemma cond_z0 bs g rows g' : z0_draws w L bs g rows g' -> forall i,
    cond_loop (trunc xreal) [] dists (map (fun v => [v]) (zos bs)) i g = (Ok (map (fun row => mkItem [d0] (map Fin row)) rows), g').
  Proof.
    induction 1 as [g|b bs g i g1 rows g2 Ec Hi Hd IH]; intros j; [reflexivity|].
    cbn [zos map cond_loop mapM int_of]. rewrite trunc_zo.
    assert (El : (do k <- Ok (if b then 1%Z else 0%Z); lget dists k) = Ok (z0x_cpd w (map (map Fin) (lw_support L)) d0 (map Fin (lw_prob L b))))
      by (destruct b; reflexivity).
    rewrite El. unfold z0x_cpd at 1. rewrite Ec.
    assert (Ea : at_ (map (map Fin) (lw_support L)) i = Ok (map Fin (nth i (lw_support L) []))).
    { rewrite (at_ok _ i (map Fin [])) by (rewrite map_length; destruct HS; lia). now rewrite map_nth. }
    cbn [mapM]. rewrite Ea. cbn [bind map np_array forallb i_shape]. destruct (list_eq_dec Nat.eq_dec [d0] [d0]); [|congruence].
    cbn [andb i_data map aitem arows nth_error atail]. fold (zos bs). rewrite IH. reflexivity.
  Qed.
  Lemma z0_cpd_draws n' bs g rows g' : bs <> [] -> z0_draws w L bs g rows g' ->
    z0_cpd xreal w (map (map Fin) (lw_support L)) d0 (map Fin (lw_prob L false), map Fin (lw_prob L true)) n' [vec (zos bs)] g
    = (Ok (rmat d0 rows), g').
  Proof.
    intros Hne Hd. unfold z0_cpd, categorical_conditioning. cbn [fst snd List.length].
    change ((Z.of_nat 1 <=? 0)%Z) with false. cbv iota. change (norm_index 1 0) with (@Ok nat 0%nat). cbn [nth_error delete_at]. cbv iota beta.
    change (arows (vec (zos bs))) with (map (fun v => [v]) (zos bs)).
    fold dists. rewrite (cond_z0 bs g rows g' Hd). f_equal. unfold np_array.
    destruct Hd as [g|b bs g i g1 rows g2 Ec Hi Hd]; [congruence|]. cbn [map i_shape].
    match goal with |- context [if ?c then _ else _] => assert (E : c = true) end.
    { apply forallb_forall. intros y Hy. change (mkItem [d0] (map Fin (nth i (lw_support L) [])) :: map (fun row => mkItem [d0] (map Fin row)) rows)
        with (map (fun row => mkItem [d0] (map Fin row)) (nth i (lw_support L) [] :: rows)) in Hy.
      apply in_map_iff in Hy as (row & <- & _). cbn [i_shape]. destruct (list_eq_dec Nat.eq_dec [d0] [d0]); congruence. }
    rewrite E. unfold rmat. do 2 f_equal. cbn [map i_data]. f_equal. rewrite map_map. reflexivity.
  Qed.
End Z0.

(** ** the dict of CPDs *)
Lemma map_seq_nth {A} (f : nat -> A) s n i d : (i < n)%nat -> nth i (map f (seq s n)) d = f (s + i)%nat.
Proof. intros H. rewrite (nth_indep _ d (f 0%nat)) by (rewrite map_length, seq_length; exact H). rewrite map_nth, seq_nth by exact H. reflexivity. Qed.
Lemma at_path {A} (z : A) (f : nat -> A) m i : (1 <= i <= m)%nat -> at_ (z :: map f (seq 1 m)) i = Ok (f i).
Proof.
  intros H. rewrite (at_ok _ i z) by (cbn [List.length]; rewrite map_length, seq_length; lia).
  destruct i as [|i]; [lia|]. cbn [nth]. rewrite map_seq_nth by lia. reflexivity.
Qed.
Lemma fits_map (l : list nat) (f : nat -> nat) (b : nat -> list R) : (forall i, In i l -> length (b i) = f i) ->
  forall ps, map fst ps = map f l -> fits ps (map b l).
Proof.
  intros H ps E. revert ps E. induction l as [|i l IH]; intros [|p ps] E; try discriminate; [constructor|].
  injection E as E1 E2. constructor; [rewrite E1; apply H; now left|]. apply IH; [|exact E2]. intros j Hj. apply H. now right.
Qed.

Section Follows.
  Context {G Q : Type} (w : cpd_world X G) (r : rng_world X Q).
  Hypothesis Hr : real_rng r.

  Lemma z0_choice_x fuel k q support p q2 mu0 b0 l1 l2 : k_muz k = VArr (rvec mu0) :: l1 -> k_beta k = VArr (rvec b0) :: l2 ->
    z0_choice xreal r fuel k q = Returned (support, p) q2 ->
    exists S p0 p1, support = map (map Fin) S /\ matrix 10 (length mu0) S /\ p = (map Fin p0, map Fin p1)
      /\ is_distribution 10 p0 /\ is_distribution 10 p1.
  Proof.
    intros Em Eb E. unfold z0_choice in E. rewrite Em, Eb in E. cbn [val_entries] in E.
    assert (Ee : forall l, entries (rvec l) = map Fin l).
    { intros l. unfold rvec, entries, vec. cbn [arows]. induction l as [|x l IH]; [reflexivity|]. cbn [map List.concat app]. f_equal. exact IH. }
    rewrite !Ee in E. destruct (z0_support_x r Hr mu0 q) as (S & q' & Es & HS). rewrite Es in E.
    destruct (tau_selection_some xreal (draw_dists xreal r) (z0_effect xreal (map (map Fin) S) (map Fin b0))
                (fun p => exists p0 p1, p = (map Fin p0, map Fin p1) /\ is_distribution 10 p0 /\ is_distribution 10 p1)
                (draw_dists_x r Hr) fuel q') as [(d & st & E2 & p0 & p1 & Hp & D0 & D1)|(st & E2)]; rewrite E2 in E; [|discriminate].
    injection E as <- <- _. exists S, p0, p1. auto.
  Qed.

  Lemma follows_of zd vd m ent seed fuel d q : (1 <= m < length zd)%nat -> (m < length vd)%nat ->
    section_5_1_cpds xreal w r zd vd m ent seed fuel = Returned d q ->
    (forall v, paper_var m v -> exists f, entry d v f)
    /\ exists L, law_fits zd vd m L /\ follows w zd vd m L d
       /\ exists k q1 l, coefs1 xreal r zd vd m (start_rng r ent seed) = Ok (k, q1) /\ k_beta k = VArr (rvec (lw_beta L 0)) :: l
            /\ z0_choice xreal r fuel k q1 = Returned (map (map Fin) (lw_support L), (map Fin (lw_prob L false), map Fin (lw_prob L true))) q.
  Proof.
    intros Hz Hv E. destruct (section_5_1_shape xreal w r zd vd m ent seed fuel Hz Hv) as (k & q1 & d1 & Ek & Hsz & Ed & Hcase).
    destruct Hcase as [(support & p & q2 & Ez & E')|(q2 & E')]; rewrite E' in E; [|discriminate]. injection E as <- ->. clear E'.
    destruct (coefs1_x r Hr zd vd m (start_rng r ent seed) Hz Hv) as (ga & al & be & mu0 & rest & k' & q' & Ek' & Hh).
    rewrite Ek in Ek'. injection Ek' as <- <-. destruct Hh as [[z1 H1] [z2 H2] H3 [z4 H4] [z5 H5] H6 H7 (L0 & L1 & L2)].
    destruct (z0_choice_x fuel k q1 support p q mu0 (be 0%nat) _ _ H3 H7 Ez) as (S & p0 & p1 & -> & HS & -> & D0 & D1).
    rewrite L0 in HS.
    destruct (path_cpds1_ok xreal w m k Hsz (seq 1 m) [("X", x_cpd1 xreal w (k_gamma k)); ("Y", y_cpd1 xreal w (k_beta k))]) as (d' & Ed' & Hk & Hn).
    { apply Forall_forall. intros i Hi. apply in_seq in Hi. lia. } { apply seq_NoDup. }
    rewrite Ed in Ed'. injection Ed' as <-.
    assert (HX : sget d1 "X" = Some (x_cpd1 xreal w (k_gamma k))) by (rewrite Hk; [reflexivity|intros i _; split; discriminate]).
    assert (HY : sget d1 "Y" = Some (y_cpd1 xreal w (k_beta k))) by (rewrite Hk; [reflexivity|intros i _; split; discriminate]).
    assert (HP : forall i, (1 <= i <= m)%nat ->
      sget d1 (Vn i) = Some (v_cpd w (VArr (rvec (repeat 0 (nth i vd 0%nat)))) (VArr (rmat (nth i vd 0%nat) (diagonal 1 (nth i vd 0%nat)))))
      /\ sget d1 (Zn i) = Some (z_cpd1 xreal w (VArr (rmat (nth i zd 0%nat) (al i))) (VArr (rvec (repeat 0 (nth i zd 0%nat)))) (VArr (rmat (nth i zd 0%nat) (diagonal (1/10) (nth i zd 0%nat)))))).
    { intros i Hi. destruct (Hn i) as (mv & cv & al' & mz & cz & E1 & E2 & E3 & E4 & E5 & G1 & G2); [apply in_seq; lia|].
      rewrite H1, at_path in E1 by exact Hi. rewrite H2, at_path in E2 by exact Hi. rewrite H5, at_path in E3 by exact Hi.
      rewrite H3, at_path in E4 by exact Hi. rewrite H4, at_path in E5 by exact Hi.
      injection E1 as <-. injection E2 as <-. injection E3 as <-. injection E4 as <-. injection E5 as <-. auto. }
    set (L := mkLaw ga al be S (fun b : bool => if b then p1 else p0)).
    split.
    { intros v Hin. destruct (String.eqb_spec v "Z0") as [-> |Hne]; [eexists; apply entry_sget, sget_same|].
      destruct Hin as [| | |i Hi|i Hi]; try congruence; eexists; apply entry_sget; rewrite sget_other by assumption;
        [exact HX|exact HY|apply (HP i Hi)|apply (HP i Hi)]. }
    exists L. split; [|split; [|exists k, q1; eexists; split; [exact Ek|]; split; [exact H7|exact Ez]]].
    { constructor; cbn [L lw_gamma lw_alpha lw_beta lw_support lw_prob]; auto.
      - intros i Hi. now apply L1. - intros i Hi. now apply L1. - intros []; assumption. }
    constructor.
    - intros i f Hi Hf n args g es g' Ed2. apply entry_sget in Hf. rewrite sget_other in Hf by discriminate.
      rewrite (proj1 (HP i Hi)) in Hf. injection Hf as <-. unfold v_cpd.
      pose proof (mv_noise_x w (repeat 0 (nth i vd 0%nat)) (diagonal 1 (nth i vd 0%nat)) n g es g') as Em. rewrite repeat_length in Em.
      rewrite Em; [reflexivity|apply diagonal_matrix|exact Ed2].
    - intros i f Hi Hf n n' p g es g' Hp Hs Ed2 He. apply entry_sget in Hf. rewrite sget_other in Hf.
      2:{ intros E. apply (Zn_neq_Z0 i); [lia|]. exact E. }
      rewrite (proj2 (HP i Hi)) in Hf. injection Hf as <-. unfold z_cpd1.
      destruct (C89_multivariate G w n [p] [al i] [] (repeat 0 (nth i zd 0%nat)) (diagonal (1/10) (nth i zd 0%nat)) g es g') as (ys & Ey & My & Hy).
      + discriminate. + exact Hs. + rewrite repeat_length. constructor; [|constructor]. rewrite Hp. apply L1. exact Hi.
      + rewrite repeat_length. apply diagonal_matrix. + exact Ed2. + rewrite repeat_length. exact He.
      + rewrite repeat_length in *. cbn [map app] in Ey. exists ys. rewrite Ey. split; [reflexivity|]. split; [exact My|].
        intros j c Hj Hc. rewrite (Hy j c Hj Hc). unfold linear_at. cbn [map2 rsum]. cbn [L lw_alpha]. ring.
    - intros f Hf n n' ps g xs g' Hps Hs Eb Hx. apply entry_sget in Hf. rewrite sget_other in Hf by discriminate.
      rewrite HX in Hf. injection Hf as <-. unfold x_cpd1. rewrite H6.
      pose proof (fits_map (seq 1 m) (fun i => nth i vd 0%nat) ga) as Hfit.
      destruct (C90_linear G w n ps (map ga (seq 1 m)) [] g xs g') as [Ex _].
      + intros ->. destruct m; [lia|discriminate]. + exact Hs.
      + apply Hfit; [|exact Hps]. intros i Hi. apply in_seq in Hi. apply L1. lia.
      + exact Eb. + exact Hx.
      + rewrite app_nil_r, map_map in Ex. rewrite Ex. reflexivity.
    - intros f Hf n' bs g rows g' Hne Hd. apply entry_sget in Hf. rewrite sget_same in Hf. injection Hf as <-.
      exact (z0_cpd_draws w L (nth 0 zd 0%nat) HS n' bs g rows g' Hne Hd).
    - intros f Hf n n' ps g es g' Hps Hs Eb He. apply entry_sget in Hf. rewrite sget_other in Hf by discriminate.
      rewrite HY in Hf. injection Hf as <-. unfold y_cpd1. rewrite H7, nint_x, lit_x by lia. change (1 / 10)%R with (IZR 1 / IZR (Zpos 10)) in Eb.
      destruct (C89_univariate G w n ps (map be (seq 0 (Datatypes.S m))) rest 0 (IZR 1 / IZR (Zpos 10)) g es g') as (ys & Ey & Hl & Hy).
      + intros ->. discriminate. + exact Hs.
      + apply (fits_map _ (fun i => nth i zd 0%nat)); [|exact Hps]. intros i Hi. apply in_seq in Hi. apply L2. lia.
      + lra. + exact Eb. + exact He.
      + rewrite map_map in Ey. rewrite Ey. exists ys. split; [reflexivity|]. split; [exact Hl|]. exact Hy.
  Qed.
End Follows.
