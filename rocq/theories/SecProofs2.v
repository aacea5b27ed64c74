(** The coefficients of Section 5.1 on real numbers. *)
From Coq Require Import String List Arith ZArith Reals Bool Lia Lra.
From Verif Require Import PyBase PyLemmas Num NumLemmas NumOps DataModel ScmModel ScmSpec ScmProofs TabSpec TabReal ArmModel ParamModel ParamProofs5 PaperModel PaperSpec PaperProofs PaperProofs4 UtilModel UtilProps ExampleSpec ExampleProps CpdModel CpdSpec CpdProofs CpdProps SecSpec SecProofs.
Import ListNotations.
Open Scope string_scope.
Open Scope nat_scope.
Open Scope R_scope.

Section Real.
  Context {Q : Type} (r : rng_world X Q).
  Hypothesis Hr : real_rng r.

  Lemma scaled_x c k q : exists l q', scaled xreal r (Fin c) k q = (VArr (rvec l), q') /\ length l = k.
  Proof.
    destruct (rr_std r Hr k q) as (l & q' & E & Hl). exists (map (Rmult c) l), q'. unfold scaled. rewrite E, map_length. split; [|exact Hl].
    unfold rvec. do 3 f_equal. rewrite !map_map. reflexivity.
  Qed.
  Lemma scaled_zero k q : exists q', scaled xreal r (nint xreal 0) k q = (VArr (rvec (repeat 0 k)), q').
  Proof.
    destruct (rr_std r Hr k q) as (l & q' & E & Hl). exists q'. unfold scaled. rewrite E. unfold rvec. do 3 f_equal.
    rewrite nint_x, map_map, <- Hl. clear. induction l as [|a l IH]; [reflexivity|]. cbn [map List.length repeat]. rewrite IH. f_equal.
    cbn. f_equal. lra.
  Qed.
  Lemma reshape_matrix {A} a b (l : list A) : length l = (a * b)%nat ->
    length (reshape a b l) = a /\ Forall (fun row => length row = b) (reshape a b l).
  Proof.
    intros H. unfold reshape. rewrite map_length, seq_length. split; [reflexivity|]. apply Forall_forall. intros row Hin.
    apply in_map_iff in Hin as (i & <- & Hi). apply in_seq in Hi. rewrite firstn_length, skipn_length, H. nia.
  Qed.
  Lemma reshape_map {A B} (f : A -> B) a b l : reshape a b (map f l) = map (map f) (reshape a b l).
  Proof. unfold reshape. rewrite map_map. apply map_ext. intros i. now rewrite skipn_map, firstn_map. Qed.
  Lemma scaled2_x c a b q : exists M q', scaled2 xreal r (Fin c) a b q = (VArr (rmat b M), q') /\ matrix a b M.
  Proof.
    destruct (rr_std r Hr (a * b) q) as (l & q' & E & Hl). exists (reshape a b (map (Rmult c) l)), q'. unfold scaled2. rewrite E. split.
    - unfold rmat. do 3 f_equal. rewrite <- reshape_map. f_equal. rewrite !map_map. reflexivity.
    - apply reshape_matrix. now rewrite map_length.
  Qed.
  Lemma identity_x c k : identity xreal (Fin c) k = VArr (rmat k (diagonal c k)).
  Proof.
    unfold identity, rmat, diagonal. do 2 f_equal. rewrite map_map. apply map_ext. intros i. rewrite map_map. apply map_ext. intros j.
    destruct (Nat.eqb i j); rewrite nint_x; cbn; f_equal; lra.
  Qed.
  Lemma diagonal_matrix c k : matrix k k (diagonal c k).
  Proof.
    unfold diagonal. split; [now rewrite map_length, seq_length|]. apply Forall_forall. intros row Hin.
    apply in_map_iff in Hin as (i & <- & _). now rewrite map_length, seq_length.
  Qed.

  Lemma repeat_map_fin (mu0 : list R) n : map Fin (List.concat (repeat mu0 n)) = List.concat (repeat (map Fin mu0) n).
  Proof. induction n as [|n IH]; [reflexivity|]. cbn [repeat List.concat]. now rewrite map_app, IH. Qed.

  (** the lists after a passes *)
  Record holds (zd vd : list nat) (a : nat) (ga : nat -> list R) (al : nat -> list (list R)) (be : nat -> list R) (mu0 : list R) (rest : list (val X)) (k : coefs X) : Prop := mkHolds {
    hd_muv : exists z, k_muv k = z :: map (fun i => VArr (rvec (repeat 0 (nth i vd 0%nat)))) (seq 1 a);
    hd_covv : exists z, k_covv k = z :: map (fun i => VArr (rmat (nth i vd 0%nat) (diagonal 1 (nth i vd 0%nat)))) (seq 1 a);
    hd_muz : k_muz k = VArr (rvec mu0) :: map (fun i => VArr (rvec (repeat 0 (nth i zd 0%nat)))) (seq 1 a);
    hd_covz : exists z, k_covz k = z :: map (fun i => VArr (rmat (nth i zd 0%nat) (diagonal (1/10) (nth i zd 0%nat)))) (seq 1 a);
    hd_alpha : exists z, k_alpha k = z :: map (fun i => VArr (rmat (nth i zd 0%nat) (al i))) (seq 1 a);
    hd_gamma : k_gamma k = map (fun i => VArr (rvec (ga i))) (seq 1 a);
    hd_beta : k_beta k = (map (fun i => VArr (rvec (be i))) (seq 0 (S a)) ++ rest)%list;
    hd_lens : length mu0 = nth 0 zd 0%nat
      /\ (forall i, (1 <= i <= a)%nat -> length (ga i) = nth i vd 0%nat /\ matrix (nth i vd 0%nat) (nth i zd 0%nat) (al i))
      /\ (forall i, (i <= a)%nat -> length (be i) = nth i zd 0%nat) }.

  Definition upd {A} (f : nat -> A) (i : nat) (x : A) (j : nat) : A := if Nat.eqb j i then x else f j.
  Lemma upd_same {A} (f : nat -> A) i x : upd f i x i = x.
  Proof. unfold upd. now rewrite Nat.eqb_refl. Qed.
  Lemma upd_other {A} (f : nat -> A) i x j : j <> i -> upd f i x j = f j.
  Proof. intros H. unfold upd. now apply Nat.eqb_neq in H; rewrite H. Qed.
  Lemma upd_map {A B} (h : nat -> A -> B) (f : nat -> A) s a x :
    map (fun i => h i (upd f (s + a) x i)) (seq s a) = map (fun i => h i (f i)) (seq s a).
  Proof. apply map_ext_in. intros j Hj. apply in_seq in Hj. rewrite upd_other by lia. reflexivity. Qed.
  Lemma snoc_map {B} (h : nat -> B) s a : map h (seq s (S a)) = (map h (seq s a) ++ [h (s + a)%nat])%list.
  Proof. rewrite seq_S, map_app. reflexivity. Qed.

  Lemma start_holds zd q : zd <> [] -> exists be mu0 k q', coefs_start xreal r zd q = Ok (k, q') /\ k_last k = None
    /\ forall vd ga al, holds zd vd 0 ga al be mu0 [] k.
  Proof.
    intros H. destruct zd as [|d0 zd]; [congruence|]. unfold coefs_start. change (at_ (d0 :: zd) 0) with (Ok d0). cbn [bind].
    rewrite lit_x by lia. destruct (scaled_x (IZR 2 / IZR (Zpos 10)) d0 q) as (mu0 & q1 & E1 & L1). rewrite E1.
    destruct (scaled_x (IZR 2 / IZR (Zpos 10)) d0 q1) as (b0 & q2 & E2 & L2). rewrite E2.
    exists (fun _ => b0), mu0. do 2 eexists. split; [reflexivity|]. split; [reflexivity|]. intros vd ga al. constructor; cbn [k_muv k_covv k_muz k_covz k_alpha k_gamma k_beta k_last seq map app].
    - eauto. - eauto. - reflexivity. - eauto. - eauto. - reflexivity.
    - reflexivity.
    - split; [exact L1|]. split; [intros; lia|]. intros i Hi. replace i with 0%nat by lia. exact L2.
  Qed.
  Lemma step_holds zd vd s a ga al be mu0 k q : (S a < length zd)%nat -> (S a < length vd)%nat ->
    holds zd vd a ga al be mu0 [] k ->
    exists ga' al' be' k' q', coefs_step xreal r zd vd (Fin s) (S a) k q = Ok (k', q') /\ holds zd vd (S a) ga' al' be' mu0 [] k'
      /\ k_last k' = Some (Fin s, S a).
  Proof.
    intros Hz Hv [[z1 H1] [z2 H2] H3 [z4 H4] [z5 H5] H6 Hb (L0 & L1 & L2)]. rewrite app_nil_r in Hb.
    unfold coefs_step. rewrite (at_ok vd (S a) 0%nat Hv), (at_ok zd (S a) 0%nat Hz). cbn [bind].
    destruct (scaled_zero (nth (S a) vd 0%nat) q) as (q1 & E1). rewrite E1. cbn [bind].
    destruct (scaled_zero (nth (S a) zd 0%nat) q1) as (q2 & E2). rewrite E2.
    destruct (scaled_x s (nth (S a) vd 0%nat) q2) as (g & q3 & E3 & Lg). rewrite E3.
    rewrite lit_x by lia. change (nmul xreal (Fin (IZR 5 / IZR (Zpos 10))) (Fin s)) with (Fin (IZR 5 / IZR (Zpos 10) * s)).
    destruct (scaled2_x (IZR 5 / IZR (Zpos 10) * s) (nth (S a) vd 0%nat) (nth (S a) zd 0%nat) q3) as (A & q4 & E4 & LA). rewrite E4.
    rewrite nint_x. change (nsub xreal (Fin (IZR 2)) (Fin s)) with (Fin (IZR 2 + - s)).
    destruct (scaled_x (IZR 2 + - s) (nth (S a) zd 0%nat) q4) as (b & q5 & E5 & Lb). rewrite E5.
    exists (upd ga (S a) g), (upd al (S a) A), (upd be (S a) b). do 2 eexists. split; [reflexivity|].
    assert (Hbeta : (k_beta k ++ [VArr (rvec b)])%list = map (fun i => VArr (rvec (upd be (S a) b i))) (seq 0 (S (S a)))).
    { rewrite Hb, (snoc_map _ 0 (S a)). cbn [plus]. rewrite upd_same. f_equal. symmetry. apply (upd_map (fun _ l => VArr (rvec l)) be 0 (S a)). }
    split; [|reflexivity].
    constructor; cbn [k_muv k_covv k_muz k_covz k_alpha k_gamma k_beta k_last].
    - exists z1. now rewrite H1, (snoc_map _ 1 a).
    - exists z2. rewrite H2, (snoc_map _ 1 a). cbn [plus app]. do 2 f_equal. now rewrite nint_x, identity_x.
    - now rewrite H3, (snoc_map _ 1 a).
    - exists z4. rewrite H4, (snoc_map _ 1 a). cbn [plus app]. do 2 f_equal. rewrite lit_x, identity_x by lia. reflexivity.
    - exists z5. rewrite H5, (snoc_map _ 1 a). cbn [plus app]. rewrite upd_same. do 2 f_equal. symmetry.
      apply (upd_map (fun i M => VArr (rmat (nth i zd 0%nat) M)) al 1 a).
    - rewrite H6, (snoc_map _ 1 a). cbn [plus app]. rewrite upd_same. f_equal. symmetry. apply (upd_map (fun _ l => VArr (rvec l)) ga 1 a).
    - rewrite app_nil_r. exact Hbeta.
    - split; [exact L0|]. split.
      + intros i Hi. destruct (Nat.eq_dec i (S a)) as [-> | Hne]; [rewrite !upd_same; auto|]. rewrite !upd_other by exact Hne. apply L1. lia.
      + intros i Hi. destruct (Nat.eq_dec i (S a)) as [-> | Hne]; [rewrite upd_same; auto|]. rewrite upd_other by exact Hne. apply L2. lia.
  Qed.

  Lemma loop_holds zd vd mu0 j : forall a ga al be k q, (a + j < length zd)%nat -> (a + j < length vd)%nat ->
    holds zd vd a ga al be mu0 [] k -> (k_last k = None -> a = 0%nat) -> (forall s i, k_last k = Some (s, i) -> i = a /\ exists x, s = Fin x) ->
    exists ga' al' be' k' q', coefs_loop1 xreal r zd vd (seq (S a) j) k q = Ok (k', q') /\ holds zd vd (a + j) ga' al' be' mu0 [] k'
      /\ (k_last k' = None -> a + j = 0)%nat /\ (forall s i, k_last k' = Some (s, i) -> i = (a + j)%nat /\ exists x, s = Fin x).
  Proof.
    induction j as [|j IH]; intros a ga al be k q Hz Hv Hh Hn Hl; cbn [seq coefs_loop1].
    - rewrite Nat.add_0_r. exists ga, al, be, k, q. auto.
    - unfold s_lo, s_hi. rewrite !lit_x by lia. destruct (rr_uniform r Hr (IZR 1 / IZR (Zpos 10)) (IZR 19 / IZR (Zpos 10)) q) as (s & q1 & E & _); [lra|].
      rewrite E. destruct (step_holds zd vd s a ga al be mu0 k q1 ltac:(lia) ltac:(lia) Hh) as (ga1 & al1 & be1 & k1 & q2 & E1 & Hh1 & Hl1).
      rewrite E1. cbn [bind fst snd]. destruct (IH (S a) ga1 al1 be1 k1 q2 ltac:(lia) ltac:(lia) Hh1) as (ga2 & al2 & be2 & k2 & q3 & E2 & Hh2 & Hn2 & Hl2).
      + congruence.
      + intros s' i Hi. rewrite Hl1 in Hi. injection Hi as <- <-. eauto.
      + exists ga2, al2, be2, k2, q3. replace (a + S j)%nat with (S a + j)%nat by lia. auto.
  Qed.
  Lemma coefs1_x zd vd m q : (1 <= m < length zd)%nat -> (m < length vd)%nat ->
    exists ga al be mu0 rest k q', coefs1 xreal r zd vd m q = Ok (k, q') /\ holds zd vd m ga al be mu0 rest k.
  Proof.
    intros Hz Hv. unfold coefs1. destruct (start_holds zd q) as (be & mu0 & k & q1 & E & Hl & Hh); [destruct zd; [cbn in Hz; lia|discriminate]|].
    rewrite E. cbn [bind fst snd].
    destruct (loop_holds zd vd mu0 m 0 (fun _ => []) (fun _ => []) be k q1 ltac:(lia) ltac:(lia) (Hh vd _ _)) as (ga1 & al1 & be1 & k1 & q2 & E1 & Hh1 & Hn1 & Hl1).
    { trivial. } { intros s i Hi. congruence. }
    rewrite E1. cbn [bind fst snd plus] in *. unfold coefs_end. destruct (k_last k1) as [[s i]|] eqn:El; [|specialize (Hn1 eq_refl); lia].
    destruct (Hl1 s i eq_refl) as (-> & x & ->). rewrite (at_ok zd m 0%nat) by lia. cbn [bind]. rewrite nint_x.
    change (nsub xreal (Fin (IZR 1)) (Fin x)) with (Fin (IZR 1 + - x)).
    destruct (scaled_x (IZR 1 + - x) (nth m zd 0%nat) q2) as (b & q3 & E3 & _). rewrite E3.
    exists ga1, al1, be1, mu0, [VArr (rvec b)]. do 2 eexists. split; [reflexivity|]. destruct Hh1 as [H1 H2 H3 H4 H5 H6 H7 H8].
    constructor; cbn [k_muv k_covv k_muz k_covz k_alpha k_gamma k_beta k_last]; trivial. now rewrite H7, app_nil_r.
  Qed.

  (** the distributions of Z0 *)
  Lemma draw_dist_x q : exists p q', draw_dist xreal r q = (map Fin p, q') /\ is_distribution 10 p.
  Proof.
    unfold draw_dist. destruct (rr_std r Hr support_size q) as (l & q' & E & Hl). rewrite E, lit_x by lia.
    assert (El : map (nmul xreal (Fin (IZR 4 / IZR (Zpos 10)))) (map Fin l) = map Fin (map (Rmult (IZR 4 / IZR (Zpos 10))) l)).
    { rewrite !map_map. reflexivity. }
    rewrite El. destruct (C76_softmax (map (Rmult (IZR 4 / IZR (Zpos 10))) l)) as (ps & Es & Lp & Hp & Hs & _).
    { destruct l; [discriminate|]. discriminate. }
    rewrite Es. exists ps, q'. split; [reflexivity|]. split; [|auto]. rewrite Lp, map_length. exact Hl.
  Qed.
  Lemma draw_dists_x q : exists p0 p1, fst (draw_dists xreal r q) = (map Fin p0, map Fin p1) /\ is_distribution 10 p0 /\ is_distribution 10 p1.
  Proof.
    unfold draw_dists. destruct (draw_dist_x q) as (p0 & q1 & E0 & H0). rewrite E0. destruct (draw_dist_x q1) as (p1 & q2 & E1 & H1). rewrite E1.
    exists p0, p1. auto.
  Qed.
  Lemma z0_support_x mu0 q : exists S q', z0_support r (map Fin mu0) q = (map (map Fin) S, q') /\ matrix 10 (length mu0) S.
  Proof.
    unfold z0_support. destruct (rr_normal r Hr (List.concat (repeat mu0 support_size)) q) as (l & q' & E & Hl).
    rewrite <- repeat_map_fin. rewrite E. exists (reshape support_size (length mu0) l), q'. rewrite map_length, reshape_map. split; [reflexivity|].
    apply reshape_matrix. rewrite Hl. clear. induction support_size as [|n IH]; [reflexivity|]. cbn [repeat List.concat]. rewrite app_length, IH. reflexivity.
  Qed.
End Real.
