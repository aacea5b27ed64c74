(** Sorting, intervals (C30, C33, C36, C37), generic in the number type. *)
From Coq Require Import List Arith ZArith Bool Permutation Lia Sorted.
From Verif Require Import PyBase PyLemmas Num NumOps NumLaws DataModel DataSpec DataProofs ArmModel ArmSpec ArmProofs1 ArmProofs2 ArmProofs3 ArmProofs4.
Import ListNotations.
Open Scope nat_scope.

Section Sort.
  Context {N : Type} (o : numops N).
  Lemma insert_perm x l : Permutation (insert o x l) (x :: l).
  Proof.
    induction l as [|y l IH]; simpl; [constructor; constructor|]. destruct (sort_before o x y); [reflexivity|].
    rewrite IH. apply perm_swap.
  Qed.
  Lemma np_sort_perm l : Permutation (np_sort o l) l.
  Proof. induction l as [|x l IH]; [constructor|]. unfold np_sort in *. simpl. rewrite insert_perm. constructor. exact IH. Qed.

  Hypothesis L : laws o.
  Lemma insert_sorted x l : okn o x -> Forall (okn o) l -> StronglySorted (fun a b => nleb o a b = true) l ->
    StronglySorted (fun a b => nleb o a b = true) (insert o x l).
  Proof.
    intros Hx. induction l as [|y l IH]; simpl; intros Hl Hs; [repeat constructor|].
    inversion Hl as [|? ? Hy Hl']; inversion Hs as [|? ? Hs' Hf]; subst. unfold sort_before. rewrite Hy. cbn [orb].
    destruct (nltb o x y) eqn:E.
    - assert (Hxy : nleb o x y = true).
      { destruct (l_tot o L x y Hx Hy) as [A|A]; [exact A|]. rewrite (l_total o L x y Hx Hy), A in E. discriminate. }
      constructor; [exact Hs|]. constructor; [exact Hxy|]. eapply Forall_impl; [|exact Hf]. intros z Hz. eapply (l_trans o L); eassumption.
    - constructor; [apply IH; assumption|].
      assert (Hyx : nleb o y x = true). { pose proof (l_total o L x y Hx Hy) as Ht. rewrite E in Ht. destruct (nleb o y x); [reflexivity|discriminate]. }
      rewrite Forall_forall in Hf |- *. intros z Hz. apply (Permutation_in _ (insert_perm x l)) in Hz as [<-|Hz]; [exact Hyx|auto].
  Qed.

  Lemma np_sort_sorted l : Forall (okn o) l -> StronglySorted (fun a b => nleb o a b = true) (np_sort o l).
  Proof.
    induction l as [|x l IH]; intros Hl; [constructor|]. inversion Hl; subst. unfold np_sort. simpl. apply insert_sorted; [assumption| |auto].
    apply (Permutation_Forall (Permutation_sym (np_sort_perm l))). assumption.
  Qed.

  Lemma sorted_nth l : Forall (okn o) l -> StronglySorted (fun a b => nleb o a b = true) l -> forall i j x y,
    nth_error l i = Some x -> nth_error l j = Some y -> i <= j -> nleb o x y = true.
  Proof.
    induction l as [|z l IH]; intros Hl Hs i j x y Hi Hj Hij; [destruct i; discriminate|].
    inversion Hl; inversion Hs as [|? ? Hs' Hf]; subst. destruct i as [|i].
    - injection Hi as ->. destruct j as [|j]; simpl in Hj.
      + injection Hj as ->. apply (l_refl o L). assumption.
      + rewrite Forall_forall in Hf. apply Hf. apply nth_error_In with j. exact Hj.
    - destruct j as [|j]; [lia|]. apply (IH ltac:(assumption) Hs' i j); try assumption. lia.
  Qed.
End Sort.

Lemma index_at_nonneg {X} (l : list X) i : (0 <= i < Z.of_nat (length l))%Z -> exists x, index_at l i = Ok x /\ nth_error l (Z.to_nat i) = Some x.
Proof.
  intros H. unfold index_at, norm_index. 
  destruct (nth_error l (Z.to_nat i)) as [x|] eqn:E; [|apply nth_error_None in E; lia]. exists x. split; [|reflexivity].
  destruct (Z.ltb_spec i 0); [lia|]. simpl.
  match goal with |- context [if ?c then _ else _] => destruct c eqn:Ec end; cbn [bind]; [rewrite ?E; reflexivity|].
  exfalso; revert Ec; lia.
Qed.

Section Widths.
  Context {N : Type} (o : numops N) (L : laws o).

  Lemma le_0_1 : nleb o (nint o 0) (nint o 1) = true.
  Proof.
    pose proof (proj1 (l_nat o L 1 ltac:(lia))) as H. unfold npos, nnat in H. simpl in H.
    destruct (l_lt_ok o L _ _ H) as [A B]. destruct (l_tot o L _ _ A B) as [C|C]; [exact C|].
    rewrite (l_total o L _ _ A B), C in H. discriminate.
  Qed.

  Lemma le_of_not x : okn o x -> nleb o x (nint o 0) = false -> nneg o x.
  Proof. intros Hx H. destruct (l_tot o L x (nint o 0) Hx (l_0 o L)) as [A|A]; [congruence|exact A]. Qed.

  Lemma fs_width_nonneg opts delta n x :
    nleb o (so_tau opts) (nint o 0) = false -> nleb o (so_burn opts) (nint o 1) = false ->
    nltb o (nnat o n) (so_burn opts) = false -> okn o (so_burn opts) ->
    okn o (fs_width o opts delta n x) -> nneg o (fs_width o opts delta n x).
  Proof.
    intros Ht Hb Hn Hob. unfold fs_width. cbv zeta.
    assert (Hn1 : 1 <= n).
    { destruct n; [|lia]. exfalso. rewrite (l_total o L) in Hn; [|exact (l_0 o L)|exact Hob].
      apply negb_false_iff in Hn. pose proof (l_trans o L _ _ _ Hn le_0_1). congruence. }
    destruct (l_nat o L n Hn1) as [_ Hsn].
    set (w0 := nmul o (nlit o 5 8) _). set (sa := nsqrt o (nadd o (nadd o _ _) _)). set (sn := nsqrt o (nnat o n)) in *.
    intros Hw. destruct (l_nan_add o L _ _ Hw) as [Hw1 Hx]. unfold nneg.
    eapply (l_trans o L); [|apply (l_add_up o L _ _ (l_sq o L x Hx) Hw)].
    destruct (l_nan_mul o L _ _ Hw1) as [Hw0 Hq].
    apply (l_mul o L _ _); [| |exact Hw1].
    - unfold w0 in Hw0 |- *. destruct (l_nan_mul o L _ _ Hw0) as [H58 Hs]. destruct (l_nan_add o L _ _ Hs) as [Hs1 Hs2].
      apply (l_mul o L _ _); [|  |exact Hw0].
      + destruct (l_lit o L 5 8 ltac:(lia)) as [A|A]; [exact A|contradiction].
      + unfold nneg. eapply (l_trans o L); [apply (l_sqrt o L _ Hs1)|]. apply (l_add_up o L); [|exact Hs]. apply le_of_not; assumption.
    - destruct (l_nan_div o L _ _ Hq) as [Hsa _]. apply (l_div o L); [apply (l_sqrt o L); exact Hsa|exact Hsn|exact Hq].
  Qed.

  (** max(v - w, 0) and v + w around a nonnegative v *)
  Lemma bracket v lo up : nneg o v -> okn o v -> (okn o lo -> nleb o lo v = true) -> (okn o up -> nleb o v up = true) ->
    okn o (nmax o lo (nint o 0)) -> okn o up ->
    nneg o (nmax o lo (nint o 0)) /\ nleb o (nmax o lo (nint o 0)) v = true /\ nleb o v up = true.
  Proof.
    intros Hv Hov Hl Hu Hm Hup. split; [|split; [|auto]]; unfold nmax in *.
    - destruct (nltb o lo (nint o 0)) eqn:E; [apply (l_refl o L), (l_0 o L)|].
      rewrite (l_total o L _ _ Hm (l_0 o L)) in E. apply negb_false_iff in E. exact E.
    - destruct (nltb o lo (nint o 0)) eqn:E; [exact Hv|]. auto.
  Qed.

  Lemma mean_sq_nonneg l c : okn o (nmean o (map (fun s => nsq o (nsub o s c)) l)) -> nneg o (nmean o (map (fun s => nsq o (nsub o s c)) l)).
  Proof. intros H. apply (l_mean o L); [|exact H]. intros x Hx Ho. apply in_map_iff in Hx as (s & <- & _). apply (l_sq o L). exact Ho. Qed.

  Lemma fs_ci_bracket v wd : nneg o v -> okn o v -> (okn o wd -> nneg o wd) ->
    forall l u, (l, u) = fs_ci o v wd -> okn o l -> okn o u -> nneg o l /\ nleb o l v = true /\ nleb o v u = true.
  Proof.
    intros Hv Hov Hw l u E Hl Hu. unfold fs_ci in E. injection E as -> ->.
    destruct (l_nan_add o L _ _ Hu) as [_ Hwd]. specialize (Hw Hwd).
    apply bracket; try assumption; intros H; [apply (l_sub o L)|apply (l_add_up o L)]; assumption.
  Qed.

  Lemma clt_bracket {G} (w : arm_world N G) v ate cd s n : nneg o v -> okn o v ->
    nnonpos o (aw_norm w (ndiv o cd (nint o 2))) -> nneg o (aw_norm w (nsub o (nint o 1) (ndiv o cd (nint o 2)))) ->
    forall l u, (l, u) = clt_ci o w v ate cd s n -> okn o l -> okn o u -> nneg o l /\ nleb o l v = true /\ nleb o v u = true.
  Proof.
    intros Hv Hov Hq1 Hq2 l u E Hl Hu. unfold clt_ci in E. cbv zeta in E. injection E as -> ->.
    set (se := nsqrt o _) in *.
    destruct (l_nan_add o L _ _ Hu) as [_ Hm]. destruct (l_nan_mul o L _ _ Hm) as [_ Hse].
    pose proof (l_sqrt o L _ Hse) as Hse'. apply bracket; try assumption; intros H.
    - destruct (l_nan_add o L _ _ H) as [_ Hm']. apply (l_add_dn o L); [|exact H]. apply (l_mul_np o L); assumption.
    - apply (l_add_up o L); [|exact H]. apply (l_mul o L); assumption.
  Qed.
End Widths.


Section Final.
  Context {N V H G : Type} (o : numops N) (vnone : V) (eo : eta_ops N V H G) (w : arm_world N G)
          (tr : expdata V -> res (expdata V)).
  Notation arm := (arm N V H).

  (** C30 *)
  Lemma fs_update_l opts (a : arm) d delta g a' g' l u : laws o -> so_ci opts = FINITE_SAMPLE -> okn o (so_burn opts) ->
    ss_update o vnone eo w tr opts a d delta g = ((a', g'), Ok (l, u)) ->
    ar_ci a' = (Some l, Some u) /\
    ((exists h, e_enough eo h = false /\ ar_eta a' = h /\ l = nint o 0 /\ u = ninf o) \/
     exists f0 f1 v, ar_split a' = Some (f0 :: f1) /\ exists f, nth_error f1 0 = Some f /\ ar_var a' = Some v /\ okn o v /\ nneg o v /\
       ((nltb o (nnat o (n_units f)) (so_burn opts) = true /\ l = nint o 0 /\ u = ninf o) \/
        (nltb o (nnat o (n_units f)) (so_burn opts) = false /\
         exists x, e_width eo (ar_eta a') (ndiv o delta (nint o 2)) (so_eta_subg opts) (so_rho opts) = Ok (Some x) /\
         let wd := fs_width o opts delta (n_units f) x in
         l = nmax o (nsub o v wd) (nint o 0) /\ u = nadd o v wd /\ (okn o wd -> nneg o wd) /\
         (okn o l -> okn o u -> nneg o l /\ nleb o l v = true /\ nleb o v u = true)))).
  Proof.
    intros L Hci Hob E. pose proof (ss_ok_inv o vnone eo w tr opts a d delta g a' g' l u E) as
      (Hc & a1 & g1 & f0 & h & g2 & Ea & E0 & Ef & _ & Hcase). split; [exact Hc|].
    destruct Hcase as [(Hen & -> & -> & _ & _ & He)|(Hen & f1 & h1 & h2 & s1 & s2 & ate & v & E1 & _ & _ & _ & _ & Ev & Hv & Hvn & Hm)].
    - left. exists h. auto.
    - right. rewrite Hci in Hm. destruct Hm as (He & Ht & Hb & Hs & ew & Hew & Hm). rewrite <- He in Hew.
      pose proof (ss_frame' o vnone eo w tr opts _ _ _ _ _ _ _ Ea _ _ _ E) as Hsp.
      unfold fold in E0, E1. destruct (ar_split a1) as [[|x0 fs]|]; try discriminate.
      exists x0, fs, v. split; [congruence|]. exists f1. simpl in E1. change (nth_error fs 0) with (hd_error fs) in *.
      destruct fs as [|y fs]; [discriminate|]. injection E1 as ->. cbn [nth_error hd_error].
      assert (Hvp : nneg o v) by (rewrite Ev; apply (mean_sq_nonneg o L); rewrite <- Ev; exact Hvn).
      split; [reflexivity|]. do 3 (split; [assumption|]).
      destruct Hm as [Hm|(Hnb & x & -> & Elu)]; [left; exact Hm|right]. split; [exact Hnb|]. exists x. split; [exact Hew|]. cbv zeta.
      assert (Hwd : okn o (fs_width o opts delta (n_units f1) x) -> nneg o (fs_width o opts delta (n_units f1) x)).
      { apply (fs_width_nonneg o L); assumption. }
      unfold fs_ci in Elu. injection Elu as -> ->. do 3 (split; [auto|]).
      intros Hl Hu. apply (fs_ci_bracket o L v (fs_width o opts delta (n_units f1) x)); auto.
  Qed.

  (** C33 *)
  Lemma clt_update_l opts (a : arm) d delta g a' g' l u : laws o -> so_ci opts = CLT ->
    ss_update o vnone eo w tr opts a d delta g = ((a', g'), Ok (l, u)) ->
    ar_ci a' = (Some l, Some u) /\ ar_pulled a' = S (ar_pulled a) /\
    ((e_enough eo (ar_eta a') = false /\ l = nint o 0 /\ u = ninf o) \/
     exists v, ar_var a' = Some v /\ okn o v /\ nneg o v /\
       let half := ndiv o (ndiv o delta (nnat o (ar_pulled a' * ar_pulled a'))) (nint o 2) in
       (exists se, (okn o se -> nneg o se) /\
         l = nmax o (nadd o v (nmul o (aw_norm w half) se)) (nint o 0) /\
         u = nadd o v (nmul o (aw_norm w (nsub o (nint o 1) half)) se)) /\
       (nnonpos o (aw_norm w half) -> nneg o (aw_norm w (nsub o (nint o 1) half)) -> okn o l -> okn o u ->
        nneg o l /\ nleb o l v = true /\ nleb o v u = true)).
  Proof.
    intros L Hci E. pose proof (ss_ok_inv o vnone eo w tr opts a d delta g a' g' l u E) as
      (Hc & a1 & g1 & f0 & h & g2 & Ea & E0 & Ef & _ & Hcase). split; [exact Hc|].
    assert (Hd : valid_delta o delta = true).
    { destruct (valid_delta o delta) eqn:Hd; [reflexivity|]. rewrite ss_invalid_l in E by exact Hd. discriminate. }
    split; [apply (ss_pulled_l o vnone eo w tr opts a d delta g a' g' _ Hd E)|].
    destruct Hcase as [(Hen & -> & -> & _ & _ & He)|(Hen & f1 & h1 & h2 & s1 & s2 & ate & v & E1 & _ & _ & _ & _ & Ev & Hv & Hvn & Hm)].
    - left. rewrite He. auto.
    - right. rewrite Hci in Hm. destruct Hm as (s3 & _ & Elu). exists v.
      assert (Hvp : nneg o v) by (rewrite Ev; apply (mean_sq_nonneg o L); rewrite <- Ev; exact Hvn).
      do 3 (split; [assumption|]). cbv zeta. split.
      + unfold clt_ci in Elu. cbv zeta in Elu. injection Elu as -> ->. eexists. split; [|split; reflexivity]. apply (l_sqrt o L).
      + intros Hq1 Hq2 Hl Hu. eapply (clt_bracket o L w v); eauto.
  Qed.

  (** C36 *)
  Lemma boot_samples total n : forall (a : arm) g acc a' g' samples f0 (P : N -> Prop),
    boot_loop o eo w total n a g acc = ((a', g'), Ok samples) -> fold a 0 = Ok f0 ->
    (forall h h' us din dout s, subsample (fun _ => us) f0 (boot_prob total) = Ok (din, dout) ->
       e_score eo h dout = (h', Ok s) -> P (nvar o s)) ->
    Forall P acc -> Forall P samples /\ length samples = length acc + n.
  Proof.
    induction n as [|n IH]; intros a g acc a' g' samples f0 P; cbn [boot_loop].
    { intros E _ _ Hacc. injection E as _ _ <-. split; [exact Hacc|lia]. }
    intros E Hf HP Hacc. rewrite Hf in E.
    destruct (subsample _ f0 _) as [[din dout]|] eqn:Es; [|discriminate].
    destruct (e_fit eo (ar_eta a) din _) as [[h g2] [e|]]; [discriminate|].
    destruct (e_score eo h dout) as [h2 [s|e]] eqn:Esc; [|discriminate].
    apply IH with (f0 := f0) (P := P) in E; [|exact Hf|exact HP|].
    - rewrite app_length in E. simpl in E. destruct E as [E1 E2]. split; [exact E1|lia].
    - apply Forall_app. split; [exact Hacc|]. constructor; [|constructor]. eapply HP; eassumption.
  Qed.

  Lemma bs_ok_inv stable nb (a : arm) d delta g a' g' l u :
    bs_update o vnone eo w tr stable nb a d delta g = ((a', g'), Ok (l, u)) ->
    ar_ci a' = (Some l, Some u) /\
    exists a1 g1 f0 h g2 b a3 g3 samples,
      absorb o vnone w tr stable a d delta g = ((a1, g1), None) /\ ar_split a' = ar_split a1 /\
      fold a1 0 = Ok f0 /\ e_fit eo (ar_eta a1) f0 g1 = ((h, g2), None) /\ boot_count o nb delta = Ok b /\
      boot_loop o eo w (Z.to_nat b) (Z.to_nat b) (set_eta a1 h) g2 [] = ((a3, g3), Ok samples) /\ g' = g3 /\
      (exists i j, boot_lo o delta b = Ok i /\ boot_hi o delta b = Ok j /\
         index_at (np_sort o samples) i = Ok l /\ index_at (np_sort o samples) j = Ok u) /\
      exists f1 h4 h5 s4 s5, fold a3 1 = Ok f1 /\ e_score eo (ar_eta a3) f1 = (h4, Ok s4) /\ e_score eo h4 f1 = (h5, Ok s5) /\
        ar_eta a' = h5 /\ ar_ate a' = Some (nmean o s4) /\ ar_var a' = Some (nvar o s5).
  Proof.
    intros E. pose proof E as E'. revert E. unfold bs_update.
    destruct (absorb o vnone w tr stable a d delta g) as [[a1 g1] [e|]] eqn:Ea; [discriminate|].
    destruct (fold a1 0) as [f0|] eqn:E0; [|discriminate].
    destruct (e_fit eo (ar_eta a1) f0 g1) as [[h g2] [e|]] eqn:Ef; [discriminate|].
    destruct (boot_count o nb delta) as [b|] eqn:Eb; [|discriminate].
    destruct (boot_loop o eo w _ _ _ g2 []) as [[a3 g3] [samples|]] eqn:Ebl; [|discriminate].
    destruct (boot_lo o delta b) as [i|] eqn:Ei; [|discriminate]. cbn [bind].
    destruct (index_at (np_sort o samples) i) as [l0|] eqn:Eil; [|discriminate]. cbn [bind].
    destruct (boot_hi o delta b) as [j|] eqn:Ej; [|discriminate]. cbn [bind].
    destruct (index_at (np_sort o samples) j) as [u0|] eqn:Eju; [|discriminate]. cbn [bind].
    unfold score1 at 1. change (fold (set_ci a3 l0 u0) 1) with (fold a3 1).
    destruct (fold a3 1) as [f1|] eqn:E1; [|discriminate]. cbn [ar_eta set_ci].
    destruct (e_score eo (ar_eta a3) f1) as [h4 [s4|]] eqn:Es4; [|discriminate].
    set (a6 := set_ate _ _). unfold score1. change (fold a6 1) with (fold a3 1). rewrite E1. change (ar_eta a6) with h4.
    destruct (e_score eo h4 f1) as [h5 [s5|]] eqn:Es5; [|discriminate].
    intros E. injection E as <- <- <- <-. split; [reflexivity|].
    exists a1, g1, f0, h, g2, b, a3, g3, samples.
    split; [reflexivity|]. split; [apply (bs_frame o vnone eo w tr stable nb _ _ _ _ _ _ _ Ea _ _ _ E')|].
    do 5 (split; [auto|]). split; [exists i, j; auto|]. exists f1, h4, h5, s4, s5. auto 7.
  Qed.

  Lemma bs_interval_l stable nb (a : arm) d delta g a' g' l u : laws o ->
    (forall b, boot_count o nb delta = Ok b -> (1 <= b)%Z -> exists i j, boot_lo o delta b = Ok i /\ boot_hi o delta b = Ok j /\ (0 <= i <= j)%Z /\ (j < b)%Z) ->
    (forall b, boot_count o nb delta = Ok b -> (1 <= b)%Z) ->
    bs_update o vnone eo w tr stable nb a d delta g = ((a', g'), Ok (l, u)) ->
    ar_ci a' = (Some l, Some u) /\
    exists b f0 fs samples, boot_count o nb delta = Ok b /\ ar_split a' = Some (f0 :: fs) /\
      length samples = Z.to_nat b /\
      Forall (fun v => exists h h' us din dout s, subsample (fun _ => us) f0 (boot_prob (Z.to_nat b)) = Ok (din, dout) /\
                e_score eo h dout = (h', Ok s) /\ v = nvar o s) samples /\
      In l samples /\ In u samples /\ (Forall (okn o) samples -> nleb o l u = true).
  Proof.
    intros L Hpos Hb1 E. destruct (bs_ok_inv _ _ _ _ _ _ _ _ _ _ E) as
      (Hc & a1 & g1 & f0 & h & g2 & b & a3 & g3 & samples & Ea & Hsp & E0 & Ef & Eb & Ebl & _ & (i & j & Ei & Ej & Hl & Hu) & _).
    split; [exact Hc|]. exists b, f0.
    unfold fold in E0. destruct (ar_split a1) as [[|x fs]|] eqn:Es; try discriminate. simpl in E0. injection E0 as ->.
    exists fs, samples. split; [exact Eb|]. split; [congruence|].
    destruct (boot_samples (Z.to_nat b) (Z.to_nat b) _ _ _ _ _ _ f0
       (fun v => exists h h' us din dout s, subsample (fun _ => us) f0 (boot_prob (Z.to_nat b)) = Ok (din, dout) /\
                e_score eo h dout = (h', Ok s) /\ v = nvar o s) Ebl) as [HF Hlen].
    { unfold fold. cbn [ar_split set_eta]. rewrite Es. reflexivity. }
    { intros h0 h' us din dout s Hs He. exists h0, h', us, din, dout, s. auto. }
    { constructor. }
    simpl in Hlen. split; [exact Hlen|]. split; [exact HF|].
    destruct (Hpos b Eb (Hb1 b Eb)) as (i' & j' & Ei' & Ej' & Hij & Hjb).
    rewrite Ei in Ei'. injection Ei' as <-. rewrite Ej in Ej'. injection Ej' as <-.
    pose proof (np_sort_perm o samples) as Hp. pose proof (Permutation_length Hp) as Hpl.
    specialize (Hb1 b Eb).
    destruct (index_at_nonneg (np_sort o samples) i) as (l' & Hl' & Nl); [lia|].
    destruct (index_at_nonneg (np_sort o samples) j) as (u' & Hu' & Nu); [lia|].
    rewrite Hl in Hl'. injection Hl' as <-. rewrite Hu in Hu'. injection Hu' as <-.
    split; [apply (Permutation_in _ Hp), nth_error_In with (Z.to_nat i); exact Nl|].
    split; [apply (Permutation_in _ Hp), nth_error_In with (Z.to_nat j); exact Nu|].
    intros Hok. apply (sorted_nth o L (np_sort o samples)) with (i := Z.to_nat i) (j := Z.to_nat j); try assumption; [|apply np_sort_sorted; assumption|lia].
    apply (Permutation_Forall (Permutation_sym Hp)). exact Hok.
  Qed.
End Final.

(** C37 *)
Section BootLog.
  Context {N V H G : Type} (o : numops N) (vnone : V) (eo : eta_ops N V H G) (w : arm_world N G)
          (tr : expdata V -> res (expdata V)).
  Notation larm := (arm N V (H * list (event V))).
  Notation lo := (logged_eta eo).

  Lemma bs_last_fit_l stable nb (a : larm) d delta g a' g' l u b :
    bs_update o vnone lo w tr stable nb a d delta g = ((a', g'), Ok (l, u)) ->
    boot_count o nb delta = Ok b -> (1 <= b)%Z ->
    exists f0 f1 rest us din dout pre,
      ar_split a' = Some (f0 :: f1 :: rest) /\
      subsample (fun _ => us) f0 (boot_prob (Z.to_nat b)) = Ok (din, dout) /\
      log_of a' = pre ++ [EFit din; EScore dout; EScore f1; EScore f1].
  Proof.
    intros E Hb Hb1. destruct (bs_ok_inv _ _ _ _ _ _ _ _ _ _ _ _ _ _ _ E) as
      (_ & a1 & g1 & f0 & h & g2 & b' & a3 & g3 & samples & Ea & Hsp & E0 & Ef & Eb & Ebl & _ & _ & f1 & h4 & h5 & s4 & s5 & E1 & Es4 & Es5 & He & _).
    rewrite Hb in Eb. injection Eb as <-.
    pose proof (boot_loop_frame _ _ _ _ _ _ _ _ _ _ _ Ebl) as (Hs3 & _). cbn [ar_split set_eta] in Hs3.
    destruct (boot_log o eo w _ _ _ _ _ _ _ _ Ebl) as (evs & Hlog & Hr). destruct (Hr samples eq_refl) as [_ Hlast].
    destruct (Hlast ltac:(lia)) as (f0' & us & din & dout & Ef0 & Hsub & pre & ->).
    unfold fold in E0, E1, Ef0. cbn [ar_split set_eta] in Ef0. rewrite Hs3 in E1.
    destruct (ar_split a1) as [[|x fs]|]; try discriminate. simpl in E0, Ef0. injection E0 as ->. injection Ef0 as <-.
    simpl in E1. destruct fs as [|y fs]; [discriminate|]. injection E1 as ->.
    exists f0, f1, fs, us, din, dout. exists (log_of (set_eta a1 h) ++ pre).
    split; [congruence|]. split; [exact Hsub|].
    unfold log_of in *. rewrite He. cbn [e_score logged_eta] in Es4, Es5.
    destruct (e_score eo (fst (ar_eta a3)) f1) as [q4 r4]. injection Es4 as <- _. cbn [fst snd] in Es5.
    destruct (e_score eo q4 f1) as [q5 r5]. injection Es5 as <- _. cbn [snd]. rewrite Hlog.
    rewrite <- !app_assoc. reflexivity.
  Qed.
End BootLog.
