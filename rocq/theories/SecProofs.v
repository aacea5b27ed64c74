(** Lemmas about the CPDs of Section 5. *)
From Coq Require Import String List Arith ZArith Reals Bool Lia Lra.
From Verif Require Import PyBase PyLemmas Num NumLemmas NumOps DataModel ScmModel ScmSpec ScmProofs TabSpec TabReal ArmModel ParamModel ParamProofs5 PaperModel PaperSpec PaperProofs PaperProofs4 UtilModel UtilProps ExampleSpec ExampleProps CpdModel CpdSpec CpdProofs CpdProps SecSpec.
Import ListNotations.
Open Scope string_scope.
Open Scope nat_scope.

(** ** any numbers: which calls raise *)
Section Any.
  Context {N G Q : Type} (o : numops N) (w : cpd_world N G) (r : rng_world N Q).

  Record sized (a : nat) (k : coefs N) : Prop := mkSized {
    sz_muv : length (k_muv k) = S a; sz_covv : length (k_covv k) = S a;
    sz_muz : length (k_muz k) = S a; sz_covz : length (k_covz k) = S a;
    sz_alpha : length (k_alpha k) = S a; sz_beta : S a <= length (k_beta k) }.

  Lemma at_err {A} (l : list A) i : length l <= i -> at_ l i = Err IndexError.
  Proof. intros H. unfold at_. apply nth_error_None in H. now rewrite H. Qed.

  Lemma start_sized zd q : zd <> [] -> exists k q', coefs_start o r zd q = Ok (k, q') /\ sized 0 k /\ k_last k = None.
  Proof.
    intros H. destruct zd as [|d0 zd]; [congruence|]. unfold coefs_start. change (at_ (d0 :: zd) 0) with (Ok d0). cbn [bind].
    destruct (scaled o r (nlit o 2 10) d0 q) as [mz q1]. destruct (scaled o r (nlit o 2 10) d0 q1) as [b0 q2].
    do 2 eexists. split; [reflexivity|]. split; [constructor; cbn; lia|reflexivity].
  Qed.
  Lemma step_sized zd vd s i k q : i < length zd -> i < length vd -> forall a, sized a k ->
    exists k' q', coefs_step o r zd vd s i k q = Ok (k', q') /\ sized (S a) k' /\ k_last k' = Some (s, i).
  Proof.
    intros Hz Hv a [H1 H2 H3 H4 H5 H6]. unfold coefs_step. rewrite (at_ok vd i 0 Hv), (at_ok zd i 0 Hz). cbn [bind].
    destruct (scaled o r (nint o 0) (nth i vd 0) q) as [mv q1]. cbn [bind].
    destruct (scaled o r (nint o 0) (nth i zd 0) q1) as [mz q2]. destruct (scaled o r s (nth i vd 0) q2) as [gm q3].
    destruct (scaled2 o r (nmul o (nlit o 5 10) s) (nth i vd 0) (nth i zd 0) q3) as [al q4].
    destruct (scaled o r (nsub o (nint o 2) s) (nth i zd 0) q4) as [bt q5].
    do 2 eexists. split; [reflexivity|]. split; [constructor; cbn; rewrite app_length; cbn; lia|reflexivity].
  Qed.
  Lemma step_short zd vd s i k q : length zd <= i \/ length vd <= i -> coefs_step o r zd vd s i k q = Err IndexError.
  Proof.
    intros H. unfold coefs_step. destruct (le_lt_dec (length vd) i) as [Hv|Hv]; [now rewrite at_err|].
    rewrite (at_ok vd i 0 Hv). cbn [bind]. destruct (scaled o r (nint o 0) (nth i vd 0) q) as [mv q1].
    rewrite at_err by lia. reflexivity.
  Qed.
  Lemma loop_sized zd vd k : forall a c q, a + k < length zd -> a + k < length vd -> sized a c ->
    exists c' q', coefs_loop1 o r zd vd (seq (S a) k) c q = Ok (c', q') /\ sized (a + k) c'
      /\ (k_last c' = None -> k = 0) /\ (forall s i, k_last c' = Some (s, i) -> i < length zd \/ (k = 0 /\ k_last c = Some (s, i))).
  Proof.
    induction k as [|k IH]; intros a c q Hz Hv Hs; cbn [seq coefs_loop1].
    - exists c, q. rewrite Nat.add_0_r. split; [reflexivity|]. split; [exact Hs|]. split; [reflexivity|]. auto.
    - destruct (rw_uniform r (s_lo o) (s_hi o) q) as [s q1].
      destruct (step_sized zd vd s (S a) c q1 ltac:(lia) ltac:(lia) a Hs) as (c1 & q2 & E & Hs1 & Hl). rewrite E. cbn [bind fst snd].
      destruct (IH (S a) c1 q2 ltac:(lia) ltac:(lia) Hs1) as (c2 & q3 & E2 & Hs2 & Hn & Hl2). exists c2, q3. split; [exact E2|].
      replace (a + S k) with (S a + k) by lia. split; [exact Hs2|]. split.
      + intros H. specialize (Hn H). subst k. cbn [seq coefs_loop1] in E2. injection E2 as -> ->. congruence.
      + intros s' i Hi. destruct (Hl2 s' i Hi) as [H|[-> H]]; [now left|]. rewrite Hl in H. injection H as _ <-. left. lia.
  Qed.
  Lemma loop_short zd vd k : forall a c q, length zd <= a + k \/ length vd <= a + k -> 1 <= k ->
    coefs_loop1 o r zd vd (seq (S a) k) c q = Err IndexError.
  Proof.
    induction k as [|k IH]; intros a c q H Hk; [lia|]. cbn [seq coefs_loop1]. destruct (rw_uniform r (s_lo o) (s_hi o) q) as [s q1].
    destruct (le_lt_dec (length zd) (S a)) as [Hz|Hz]; [rewrite step_short by lia; reflexivity|].
    destruct (le_lt_dec (length vd) (S a)) as [Hv|Hv]; [rewrite step_short by lia; reflexivity|].
    destruct (coefs_step o r zd vd s (S a) c q1) as [[c1 q2]|e] eqn:E.
    - cbn [bind fst snd]. apply IH; lia.
    - exfalso. unfold coefs_step in E. rewrite (at_ok vd (S a) 0 Hv), (at_ok zd (S a) 0 Hz) in E. cbn [bind] in E.
      repeat match type of E with context [let '(_, _) := ?t in _] => destruct t end. discriminate.
  Qed.

  Lemma coefs1_ok zd vd m q : 1 <= m < length zd -> m < length vd ->
    exists k q', coefs1 o r zd vd m q = Ok (k, q') /\ sized m k.
  Proof.
    intros Hz Hv. unfold coefs1. destruct (start_sized zd q) as (k & q1 & E & Hs & _); [destruct zd; [cbn in Hz; lia|discriminate]|].
    rewrite E. cbn [bind fst snd]. destruct (loop_sized zd vd m 0 k q1 ltac:(lia) ltac:(lia) Hs) as (k2 & q2 & E2 & Hs2 & Hn & Hl).
    rewrite E2. cbn [bind fst snd]. unfold coefs_end. destruct (k_last k2) as [[s i]|] eqn:El; [|specialize (Hn eq_refl); lia].
    destruct (Hl s i eq_refl) as [Hi|[H _]]; [|lia]. rewrite (at_ok zd i 0 Hi). cbn [bind].
    destruct (scaled o r (nsub o (nint o 1) s) (nth i zd 0) q2) as [bt q3]. do 2 eexists. split; [reflexivity|].
    destruct Hs2 as [H1 H2 H3 H4 H5 H6]. cbn [plus] in *. constructor; cbn; trivial. rewrite app_length. lia.
  Qed.
  Lemma coefs1_no_paths zd vd q : zd <> [] -> coefs1 o r zd vd 0 q = Err NameError.
  Proof.
    intros H. unfold coefs1. destruct (start_sized zd q H) as (k & q1 & E & _ & Hl). rewrite E. cbn [bind fst snd seq coefs_loop1].
    unfold coefs_end. now rewrite Hl.
  Qed.
  Lemma coefs1_short zd vd m q : zd = [] \/ (1 <= m /\ (length zd <= m \/ length vd <= m)) -> coefs1 o r zd vd m q = Err IndexError.
  Proof.
    intros H. unfold coefs1. destruct zd as [|d0 zd]; [reflexivity|]. destruct H as [H|[Hm H]]; [discriminate|].
    destruct (start_sized (d0 :: zd) q) as (k & q1 & E & _ & _); [discriminate|]. rewrite E. cbn [bind fst snd].
    now rewrite (loop_short (d0 :: zd) vd m 0 k q1).
  Qed.

  (** the dict of CPDs *)
  Lemma path_cpds1_ok m k : sized m k -> forall l d, Forall (fun i => 1 <= i <= m) l -> NoDup l ->
    exists d', path_cpds1 o w k l d = Ok d'
      /\ (forall v, (forall i, In i l -> v <> Vn i /\ v <> Zn i) -> sget d' v = sget d v)
      /\ (forall i, In i l -> exists mv cv al mz cz,
            at_ (k_muv k) i = Ok mv /\ at_ (k_covv k) i = Ok cv /\ at_ (k_alpha k) i = Ok al
            /\ at_ (k_muz k) i = Ok mz /\ at_ (k_covz k) i = Ok cz
            /\ sget d' (Vn i) = Some (v_cpd w mv cv) /\ sget d' (Zn i) = Some (z_cpd1 o w al mz cz)).
  Proof.
    intros [H1 H2 H3 H4 H5 H6]. induction l as [|i l IH]; intros d Hl Hd.
    - exists d. split; [reflexivity|]. split; [reflexivity|]. intros i [].
    - inversion Hl as [|? ? Hi Hl']. inversion Hd as [|? ? Hni Hd']. subst. cbn [path_cpds1].
      rewrite (at_ok (k_muv k) i (VNum (nint o 0))), (at_ok (k_covv k) i (VNum (nint o 0))), (at_ok (k_alpha k) i (VNum (nint o 0))),
        (at_ok (k_muz k) i (VNum (nint o 0))), (at_ok (k_covz k) i (VNum (nint o 0))) by lia. cbn [bind].
      match goal with |- context [path_cpds1 _ _ _ _ ?D] => set (d1 := D) end.
      destruct (IH d1 Hl' Hd') as (d' & E & Hk & Hn). exists d'. split; [exact E|]. split.
      + intros v Hv. rewrite Hk by (intros j Hj; apply Hv; now right). destruct (Hv i (or_introl eq_refl)) as [Hv1 Hv2].
        unfold d1. change ("V" ++ str i) with (Vn i). change ("Z" ++ str i) with (Zn i).
        rewrite (sget_other _ (Zn i)), (sget_other _ (Vn i)) by assumption. reflexivity.
      + intros j [<-|Hj]; [|auto]. do 5 eexists.
        rewrite (at_ok (k_muv k) i (VNum (nint o 0))), (at_ok (k_covv k) i (VNum (nint o 0))), (at_ok (k_alpha k) i (VNum (nint o 0))),
          (at_ok (k_muz k) i (VNum (nint o 0))), (at_ok (k_covz k) i (VNum (nint o 0))) by lia.
        do 5 (split; [reflexivity|]).
        rewrite !Hk; unfold d1; change ("V" ++ str i) with (Vn i); change ("Z" ++ str i) with (Zn i).
        * split; [rewrite sget_other by discriminate; apply sget_same|apply sget_same].
        * intros j Hj. split; [discriminate|]. intros E'. apply Zn_inj in E'. congruence.
        * intros j Hj. split; [|discriminate]. intros E'. apply Vn_inj in E'. congruence.
  Qed.

  (** the selection loop always holds a pair of distributions *)
  Lemma tau_rounds_some {D} (draw : Q -> D * Q) (effect : D -> N) (P : D -> Prop) : (forall g, P (fst (draw g))) ->
    forall k cur tm g, (match cur with Some d => P d | None => 1 <= k end) ->
    exists d tm' g', tau_rounds o draw effect k cur tm g = (Some d, tm', g') /\ P d.
  Proof.
    intros HP. induction k as [|k IH]; intros cur tm g Hc.
    - destruct cur as [d|]; [|lia]. now exists d, tm, g.
    - cbn [tau_rounds]. destruct (draw g) as [d g1] eqn:E. apply IH. specialize (HP g). now rewrite E in HP.
  Qed.
  Lemma tau_while_some {D} (draw : Q -> D * Q) (effect : D -> N) (P : D -> Prop) : (forall g, P (fst (draw g))) ->
    forall fuel d tau tm g, P d ->
    (exists d' st, tau_while o draw effect fuel (Some d) tau tm g = Returned (Some d') st /\ P d')
    \/ exists st, tau_while o draw effect fuel (Some d) tau tm g = OutOfFuel st.
  Proof.
    intros HP. induction fuel as [|f IH]; intros d tau tm g Hd; cbn [tau_while].
    - destruct (nltb o tau tm); [right; eauto|left; eauto].
    - destruct (nltb o tau tm); [|left; eauto]. destruct (draw g) as [d1 g1] eqn:E. apply IH. specialize (HP g). now rewrite E in HP.
  Qed.
  Lemma tau_selection_some {D} (draw : Q -> D * Q) (effect : D -> N) (P : D -> Prop) : (forall g, P (fst (draw g))) ->
    forall fuel g,
    (exists d st, tau_selection o draw effect fuel g = Returned (Some d) st /\ P d)
    \/ exists st, tau_selection o draw effect fuel g = OutOfFuel st.
  Proof.
    intros HP fuel g. unfold tau_selection. destruct (tau_rounds_some draw effect P HP 10 None (nint o 0) g ltac:(cbn; lia)) as (d & tm & g1 & E & Hd).
    rewrite E. now apply tau_while_some.
  Qed.

  (** the whole call *)
  Lemma section_5_1_shape zd vd m ent seed fuel : 1 <= m < length zd -> m < length vd ->
    exists k q1 d, coefs1 o r zd vd m (start_rng r ent seed) = Ok (k, q1) /\ sized m k
      /\ path_cpds1 o w k (seq 1 m) [("X", x_cpd1 o w (k_gamma k)); ("Y", y_cpd1 o w (k_beta k))] = Ok d
      /\ ((exists support p q2, z0_choice o r fuel k q1 = Returned (support, p) q2
             /\ section_5_1_cpds o w r zd vd m ent seed fuel = Returned (sset d "Z0" (z0_cpd o w support (nth 0 zd 0) p)) q2)
          \/ exists q2, section_5_1_cpds o w r zd vd m ent seed fuel = OutOfFuel q2).
  Proof.
    intros Hz Hv. destruct (coefs1_ok zd vd m (start_rng r ent seed) Hz Hv) as (k & q1 & E & Hs).
    destruct (path_cpds1_ok m k Hs (seq 1 m) [("X", x_cpd1 o w (k_gamma k)); ("Y", y_cpd1 o w (k_beta k))]) as (d & Ed & _).
    { apply Forall_forall. intros i Hi. apply in_seq in Hi. lia. } { apply seq_NoDup. }
    exists k, q1, d. split; [exact E|]. split; [exact Hs|]. split; [exact Ed|]. unfold section_5_1_cpds. rewrite E, Ed.
    rewrite (at_ok zd 0 0) by lia. unfold z0_choice. destruct Hs as [S1 S2 S3 S4 S5 S6].
    destruct (k_muz k) as [|mz ?]; [cbn in S3; lia|]. destruct (k_beta k) as [|b0 ?]; [cbn in S6; lia|].
    destruct (z0_support r (val_entries mz) q1) as [support q2].
    destruct (tau_selection_some (draw_dists o r) (z0_effect o support (val_entries b0)) (fun _ => True) (fun _ => I) fuel q2) as [(p & st & E2 & _)|(st & E2)];
      rewrite E2; [left|right]; eauto 10.
  Qed.
End Any.
