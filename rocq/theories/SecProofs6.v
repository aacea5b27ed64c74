(** The CPDs of Section 5.2 follow additive structural equations. *)
From Coq Require Import String List Arith ZArith Reals Bool Lia Lra.
From Flocq Require Import Core.
From Verif Require Import PyBase PyLemmas Num NumLemmas NumOps DataModel ScmModel ScmProofs TabSpec TabReal ArmModel ParamModel ParamProofs5 PaperModel PaperSpec PaperProofs PaperProofs4 UtilModel UtilProps ExampleSpec ExampleProps CpdModel CpdSpec CpdProofs CpdProps SecSpec SecSpec2 SecProofs SecProofs2 SecProofs3 SecProofs4 SecProofs5.
From Verif Require Import ScmSpec.
Import ListNotations.
Open Scope string_scope.
Open Scope nat_scope.
Open Scope R_scope.

Lemma nth_pos l i : Forall (fun d => (1 <= d)%nat) l -> (i < length l)%nat -> (1 <= nth i l 0%nat)%nat.
Proof. intros H Hi. apply (proj1 (Forall_forall _ _) H). now apply nth_In. Qed.

Lemma nth_repeat_lt {A} (x d : A) k : forall c, (c < k)%nat -> nth c (repeat x k) d = x.
Proof. induction k as [|k IH]; intros [|c] H; cbn; try lia; trivial. apply IH. lia. Qed.
Lemma map_nth_seq {A B} (f : A -> B) (d : A) l : forall s, map (fun i => f (nth (i - s) l d)) (seq s (length l)) = map f l.
Proof.
  induction l as [|a l IH]; intros s; [reflexivity|]. cbn [length seq map]. rewrite Nat.sub_diag. cbn [nth]. f_equal.
  rewrite <- (IH (S s)). apply map_ext_in. intros i Hi. apply in_seq in Hi. now replace (i - s)%nat with (S (i - S s)) by lia.
Qed.
Lemma Forall2_map_fst {M} (P : nat -> M -> Prop) (ps : list sample) ms : Forall2 P (map fst ps) ms -> Forall2 (fun p m => P (fst p) m) ps ms.
Proof.
  revert ms. induction ps as [|p ps IH]; intros ms H; inversion H; subst; constructor; auto.
Qed.
Lemma tl_dims (vd : list nat) m : length vd = S m -> map (fun i => nth i vd 0%nat) (seq 1 m) = tl vd.
Proof.
  destruct vd as [|v vd]; [discriminate|]. cbn [length tl]. intros [= <-]. rewrite <- seq_shift, map_map.
  pose proof (map_nth_seq (fun x => x) 0%nat vd 0) as H. rewrite map_id in H. rewrite <- H at 2. apply map_ext. intros i. now rewrite Nat.sub_0_r.
Qed.
Lemma all_dims (zd : list nat) m : length zd = S m -> map (fun i => nth i zd 0%nat) (seq 0 (S m)) = zd.
Proof. intros H. pose proof (map_nth_seq (fun x => x) 0%nat zd 0) as E. rewrite map_id, H in E. etransitivity; [|exact E]. apply map_ext. intros i. now rewrite Nat.sub_0_r. Qed.
Lemma Forall2_length' {A B} (P : A -> B -> Prop) l m : Forall2 P l m -> length l = length m.
Proof. induction 1; cbn; congruence. Qed.

Section Follows2.
  Context {G Q M : Type} (w : cpd_world X G) (r : rng_world X Q) (gpr : gp X M) (fitted : nat -> M -> Prop) (value : M -> list R -> R).
  Hypothesis Hr : real_rng r.
  Hypothesis Hg : real_gp gpr fitted value.
  Hypothesis Hs : sane_global w.

  Lemma loop2_holds zd vd mu0 j : forall a ga al be k q g, (a + j < length zd)%nat -> (a + j < length vd)%nat ->
    holds zd vd a ga al be mu0 [] k -> (k_last k = None -> a = 0%nat) -> (forall s i, k_last k = Some (s, i) -> i = a /\ exists x, s = Fin x) ->
    exists ga' al' be' k' q' g', coefs_loop2 xreal w r zd vd (seq (S a) j) k q g = (Ok (k', q'), g') /\ holds zd vd (a + j) ga' al' be' mu0 [] k'
      /\ (k_last k' = None -> a + j = 0)%nat /\ (forall s i, k_last k' = Some (s, i) -> i = (a + j)%nat /\ exists x, s = Fin x).
  Proof.
    induction j as [|j IH]; intros a ga al be k q g Hz Hv Hh Hn Hl; cbn [seq coefs_loop2].
    - rewrite Nat.add_0_r. exists ga, al, be, k, q, g. auto 10.
    - unfold s_lo, s_hi. rewrite !lit_x by lia. destruct (sg_uniform w Hs (IZR 1 / IZR (Zpos 10)) (IZR 19 / IZR (Zpos 10)) g) as (s & g1 & E & _); [lra|].
      rewrite E. destruct (step_holds r Hr zd vd s a ga al be mu0 k q ltac:(lia) ltac:(lia) Hh) as (ga1 & al1 & be1 & k1 & q2 & E1 & Hh1 & Hl1).
      rewrite E1. destruct (IH (S a) ga1 al1 be1 k1 q2 g1 ltac:(lia) ltac:(lia) Hh1) as (ga2 & al2 & be2 & k2 & q3 & g2 & E2 & Hh2 & Hn2 & Hl2).
      + congruence.
      + intros s' i Hi. rewrite Hl1 in Hi. injection Hi as <- <-. eauto.
      + exists ga2, al2, be2, k2, q3, g2. replace (a + S j)%nat with (S a + j)%nat by lia. auto.
  Qed.
  Lemma coefs2_x zd vd m q g : (1 <= m < length zd)%nat -> (m < length vd)%nat ->
    exists ga al be mu0 rest k q' g', coefs2 xreal w r zd vd m q g = (Ok (k, q'), g') /\ holds zd vd m ga al be mu0 rest k.
  Proof.
    intros Hz Hv. unfold coefs2. destruct (start_holds r Hr zd q) as (be & mu0 & k & q1 & E & Hl & Hh); [destruct zd; [cbn in Hz; lia|discriminate]|].
    rewrite E.
    destruct (loop2_holds zd vd mu0 m 0 (fun _ => []) (fun _ => []) be k q1 g ltac:(lia) ltac:(lia) (Hh vd _ _)) as (ga1 & al1 & be1 & k1 & q2 & g1 & E1 & Hh1 & Hn1 & Hl1).
    { trivial. } { intros s i Hi. congruence. }
    rewrite E1. cbn [plus] in *. unfold coefs_end. destruct (k_last k1) as [[s i]|] eqn:El; [|specialize (Hn1 eq_refl); lia].
    destruct (Hl1 s i eq_refl) as (-> & x & ->). rewrite (at_ok zd m 0%nat) by lia. cbn [bind]. rewrite nint_x.
    change (nsub xreal (Fin (IZR 1)) (Fin x)) with (Fin (IZR 1 + - x)).
    destruct (scaled_x r Hr (IZR 1 + - x) (nth m zd 0%nat) q2) as (b & q3 & E3 & _). rewrite E3.
    exists ga1, al1, be1, mu0, [VArr (rvec b)]. do 3 eexists. split; [reflexivity|]. destruct Hh1 as [H1 H2 H3 H4 H5 H6 H7 H8].
    constructor; cbn [k_muv k_covv k_muz k_covz k_alpha k_gamma k_beta k_last]; trivial. now rewrite H7, app_nil_r.
  Qed.

  Lemma path_cpds2_x zd vd m ga al be mu0 rest k : (m < length zd)%nat -> (m < length vd)%nat ->
    (forall i, (1 <= i <= m)%nat -> (1 <= nth i zd 0%nat)%nat /\ (1 <= nth i vd 0%nat)%nat) ->
    holds zd vd m ga al be mu0 rest k -> forall l, Forall (fun i => (1 <= i <= m)%nat) l -> NoDup l -> forall d g, exists d' g' (h : nat -> M),
      path_cpds2 xreal w gpr zd vd k l d g = (Ok d', g')
      /\ (forall v, (forall i, In i l -> v <> Vn i /\ v <> Zn i) -> sget d' v = sget d v)
      /\ (forall i, In i l -> fitted (nth i vd 0%nat) (h i)
            /\ sget d' (Vn i) = Some (v_cpd w (VArr (rvec (repeat 0 (nth i vd 0%nat)))) (VArr (rmat (nth i vd 0%nat) (diagonal 1 (nth i vd 0%nat)))))
            /\ sget d' (Zn i) = Some (z_cpd2 xreal w gpr (nth i zd 0%nat, repeat (h i) (nth i zd 0%nat))
                                        (VArr (rvec (repeat 0 (nth i zd 0%nat)))) (VArr (rmat (nth i zd 0%nat) (diagonal (1/10) (nth i zd 0%nat)))))).
  Proof.
    intros Hz Hv Hdim [[z1 H1] [z2 H2] H3 [z4 H4] _ _ _ _]. induction l as [|i l IH]; intros Hl Hd d g.
    - exists d, g, (fun _ => gp_new gpr). split; [reflexivity|]. split; [reflexivity|]. intros i [].
    - inversion Hl as [|? ? Hi Hl']. inversion Hd as [|? ? Hni Hd']. subst. cbn [path_cpds2].
      rewrite (at_ok vd i 0%nat), (at_ok zd i 0%nat) by lia. cbn [bind]. destruct (Hdim i Hi) as [Hzi Hvi].
      destruct (make_rfun_x w gpr fitted value Hg Hs 1 (nth i vd 0%nat) (nth i zd 0%nat) g Hvi Hzi) as (f & Ff & Ef). rewrite Ef.
      rewrite H1, H2, H3, H4, !at_path by exact Hi. cbn [bind].
      match goal with |- context [path_cpds2 _ _ _ _ _ _ _ ?D ?g1] => set (d1 := D); destruct (IH Hl' Hd' d1 g1) as (d' & g' & h & E & Hk & Hn) end.
      exists d', g', (upd h i f). split; [exact E|]. split.
      + intros v Hv'. rewrite Hk by (intros j Hj; apply Hv'; now right). destruct (Hv' i (or_introl eq_refl)) as [Hv1 Hv2].
        unfold d1. change ("V" ++ str i) with (Vn i). change ("Z" ++ str i) with (Zn i).
        rewrite (sget_other _ (Zn i)), (sget_other _ (Vn i)) by assumption. reflexivity.
      + intros j [<-|Hj]; [|rewrite upd_other by congruence; auto]. rewrite upd_same. split; [exact Ff|].
        rewrite !Hk; unfold d1; change ("V" ++ str i) with (Vn i); change ("Z" ++ str i) with (Zn i).
        * split; [rewrite sget_other by discriminate; apply sget_same|apply sget_same].
        * intros j Hj. split; [discriminate|]. intros E'. apply Zn_inj in E'. congruence.
        * intros j Hj. split; [|discriminate]. intros E'. apply Vn_inj in E'. congruence.
  Qed.

  (** the shape of the returned dict *)
  Lemma section_5_2_shape zd vd m ent seed fuel g : (1 <= m < length zd)%nat -> (m < length vd)%nat ->
    Forall (fun d => (1 <= d)%nat) zd -> Forall (fun d => (1 <= d)%nat) (tl vd) ->
    (exists g', section_5_2_cpds xreal w r gpr zd vd m ent seed fuel g = OutOfFuel g')
    \/ exists S p0 p1 fy fx h d g', section_5_2_cpds xreal w r gpr zd vd m ent seed fuel g = Returned d g'
         /\ matrix 10 (nth 0 zd 0%nat) S /\ is_distribution 10 p0 /\ is_distribution 10 p1
         /\ Forall2 fitted zd fy /\ Forall2 fitted (tl vd) fx
         /\ sget d "X" = Some (x_cpd2 xreal w gpr (map (fun m => (1%nat, [m])) fx))
         /\ sget d "Y" = Some (y_cpd2 xreal w gpr (map (fun m => (1%nat, [m])) fy))
         /\ sget d "Z0" = Some (z0_cpd xreal w (map (map Fin) S) (nth 0 zd 0%nat) (map Fin p0, map Fin p1))
         /\ forall i, (1 <= i <= m)%nat -> fitted (nth i vd 0%nat) (h i)
            /\ sget d (Vn i) = Some (v_cpd w (VArr (rvec (repeat 0 (nth i vd 0%nat)))) (VArr (rmat (nth i vd 0%nat) (diagonal 1 (nth i vd 0%nat)))))
            /\ sget d (Zn i) = Some (z_cpd2 xreal w gpr (nth i zd 0%nat, repeat (h i) (nth i zd 0%nat))
                                        (VArr (rvec (repeat 0 (nth i zd 0%nat)))) (VArr (rmat (nth i zd 0%nat) (diagonal (1/10) (nth i zd 0%nat))))).
  Proof.
    intros Hz Hv Dz Dv. unfold section_5_2_cpds.
    destruct (coefs2_x zd vd m (start_rng r ent seed) g Hz Hv) as (ga & al & be & mu0 & rest & k & q1 & g1 & Ek & Hh). rewrite Ek.
    pose proof Hh as [_ _ H3 _ _ _ H7 (L0 & _)].
    assert (Hzc : (exists q, z0_choice xreal r fuel k q1 = OutOfFuel q) \/ exists S p q, z0_choice xreal r fuel k q1 = Returned (S, p) q).
    { unfold z0_choice. rewrite H3, H7. cbn [seq map app]. destruct (z0_support r _ q1) as [S q2].
      destruct (tau_selection_some xreal (draw_dists xreal r) (z0_effect xreal S (val_entries (VArr (rvec (be 0%nat))))) (fun _ => True) (fun _ => I) fuel q2)
        as [(p & st & E & _)|(st & E)]; rewrite E; [right; eauto|left; eauto]. }
    destruct Hzc as [(q & E)|(S & p & q & Ez)]; [rewrite E; left; eauto|]. right. rewrite Ez.
    destruct (z0_choice_x r Hr fuel k q1 S p q mu0 (be 0%nat) _ _ H3 H7 Ez) as (S0 & p0 & p1 & -> & HS & -> & D0 & D1). rewrite L0 in HS.
    destruct (make_rfuns_x w gpr fitted value Hg Hs zd Dz g1) as (fy & g2 & Ey & Fy). rewrite Ey.
    destruct (make_rfuns_x w gpr fitted value Hg Hs (tl vd) Dv g2) as (fx & g3 & Ex & Fx). rewrite Ex.
    rewrite (at_ok zd 0 0%nat) by lia.
    match goal with |- context [path_cpds2 _ _ _ _ _ _ _ ?D ?gg] => set (d0 := D);
      destruct (path_cpds2_x zd vd m ga al be mu0 rest k ltac:(lia) Hv) with (l := seq 1 m) (d := d0) (g := gg) as (d & g' & h & Ed & Hk & Hn) end.
    { intros i Hi. split; [apply nth_pos; [exact Dz|lia]|]. destruct vd as [|v0 vd]; [cbn in Hv; lia|]. destruct i as [|i]; [lia|]. cbn [nth tl length] in *.
      apply nth_pos; [exact Dv|lia]. }
    { exact Hh. } { apply Forall_forall. intros i Hi. apply in_seq in Hi. lia. } { apply seq_NoDup. }
    rewrite Ed. exists S0, p0, p1, fy, fx, h, d, g'. split; [reflexivity|]. do 5 (split; [assumption|]).
    split; [rewrite Hk; [reflexivity|intros i _; split; discriminate]|]. split; [rewrite Hk; [reflexivity|intros i _; split; discriminate]|].
    split; [rewrite Hk; [reflexivity|]|].
    { intros i Hi. apply in_seq in Hi. split; [discriminate|]. intros E. apply (Zn_neq_Z0 i); [lia|]. now symmetry. }
    intros i Hi. apply Hn. apply in_seq. lia.
  Qed.

  (** the single CPDs *)
  Lemma x_cpd2_x n ps fx n' g xs g' : samples_of n ps -> (1 <= n)%nat -> ps <> [] -> Forall2 (fun p m => fitted (fst p) m) ps fx ->
    cw_binom w (map (fun j => Fin (sigm (additive j ps (map value fx)))) (seq 0 n)) g = (Ok xs, g') -> length xs = n ->
    x_cpd2 xreal w gpr (map (fun m => (1%nat, [m])) fx) n' (map sarr ps) g = (Ok (vec xs), g').
  Proof.
    intros Hp Hn Hne HF E Hx. destruct (sum_rfuns_x gpr fitted value Hg n ps fx HF Hp Hn Hne) as (t & Et & Ht & Hv).
    unfold x_cpd2. rewrite Et. unfold vbinomial, vmap, amap, column, rmat. cbn [atail arows]. rewrite !map_map.
    assert (Ep : map (fun x => map (sigmoid xreal) (map Fin [x])) t = map (fun v => [v]) (map (fun x => Fin (sigm x)) t)).
    { rewrite map_map. apply map_ext. intros z. cbn [map]. now rewrite sigmoid_x. }
    rewrite Ep. unfold entries. cbn [arows].
    change (List.concat (map (fun v => [v]) (map (fun x => Fin (sigm x)) t))) with (entries (vec (map (fun x => Fin (sigm x)) t))).
    rewrite entries_vec.
    assert (El : map (fun x => Fin (sigm x)) t = map (fun j => Fin (sigm (additive j ps (map value fx)))) (seq 0 n)).
    { rewrite (list_eta t 0) at 1. rewrite map_map, Ht. apply map_ext_in. intros j Hj. apply in_seq in Hj. do 2 f_equal. apply Hv. lia. }
    rewrite El at 1. rewrite E. rewrite rows_like_singles by (rewrite map_length; congruence). unfold as_sample, vflatten. cbn [fst snd].
    change (entries (mkArr [1%nat] (map (fun v => [v]) xs))) with (entries (vec xs)). now rewrite entries_vec.
  Qed.
  Lemma y_cpd2_x n ps fy n' g es g' : samples_of n ps -> (1 <= n)%nat -> ps <> [] -> Forall2 (fun p m => fitted (fst p) m) ps fy ->
    cw_normal w (repeat (Fin 0) n) (repeat (Fin (sqrt (1/10))) n) g = (Ok (map Fin es), g') -> length es = n ->
    exists ys, y_cpd2 xreal w gpr (map (fun m => (1%nat, [m])) fy) n' (map sarr ps) g = (Ok (rvec ys), g') /\ length ys = n
      /\ forall j, (j < n)%nat -> nth j ys 0 = additive j ps (map value fy) + nth j es 0.
  Proof.
    intros Hp Hn Hne HF E He. destruct (sum_rfuns_x gpr fitted value Hg n ps fy HF Hp Hn Hne) as (t & Et & Ht & Hv).
    exists (map2 Rplus t es). split; [|split; [now apply map2_len|]].
    - unfold y_cpd2. rewrite Et, nint_x, lit_x by lia.
      rewrite (C91_one_dimensional G w (VArr (column t)) t (VNum (Fin 0)) (VNum (Fin (1/10))) (repeat 0 (length t)) (repeat (1/10) (length t)) g es g').
      + reflexivity. + right. reflexivity. + constructor. + constructor.
      + apply Forall_forall. intros x Hx. apply repeat_spec in Hx. subst. lra.
      + assert (Em : map sqrt (repeat (1/10) (length t)) = repeat (sqrt (1/10)) (length t)) by (clear; induction (length t) as [|k IH]; [reflexivity|]; cbn [repeat map]; now rewrite IH).
        rewrite Em, <- !repeat_fin, Ht. exact E.
      + congruence.
    - intros j Hj. rewrite (nth_map2 Rplus t es j 0 0 0) by lia. now rewrite (Hv j Hj).
  Qed.
  Lemma z_cpd2_x n n' p m k g es g' : samples_of n [p] -> (1 <= n)%nat -> (1 <= k)%nat -> fitted (fst p) m ->
    cw_mvnormal w (map Fin (repeat 0 k)) (map (map Fin) (diagonal (1/10) k)) n g = (Ok (map (map Fin) es), g') -> matrix n k es ->
    exists ys, z_cpd2 xreal w gpr (k, repeat m k) (VArr (rvec (repeat 0 k))) (VArr (rmat k (diagonal (1/10) k))) n' [sarr p] g = (Ok (rmat k ys), g')
      /\ matrix n k ys /\ forall j c, (j < n)%nat -> (c < k)%nat -> nth c (nth j ys []) 0 = value m (unit_of j p) + nth c (nth j es []) 0.
  Proof.
    intros Hp Hn Hk Fm E He. set (ys := map (fun row => repeat (value m row) k) (snd p)). inversion Hp as [|? ? Hp' _]; subst.
    assert (Hf : features n [p] = sarr p).
    { unfold features, sarr. cbn [map list_sum fold_right List.concat]. rewrite Nat.add_0_r. f_equal. rewrite (list_eta (snd p) []), (proj1 Hp').
      apply map_ext. intros j. apply app_nil_r. }
    assert (My : matrix n k ys).
    { split; [unfold ys; rewrite map_length; apply Hp'|]. apply Forall_forall. intros row Hin. apply in_map_iff in Hin as (x & <- & _). apply repeat_length. }
    exists (map2 (map2 Rplus) ys es). split; [|split].
    - unfold z_cpd2.
      pose proof (C92_structural_vector G w n [p] (fun x => do y <- rcall gpr (k, repeat m k) x; Ok (VArr y)) ys (repeat 0 k) (diagonal (1/10) k) g es g') as H.
      rewrite repeat_length in H. change (map sarr [p]) with [sarr p] in H. rewrite H; [reflexivity|discriminate|exact Hp| |exact My|apply diagonal_matrix|exact E|exact He].
      rewrite Hf. unfold sarr at 1. rewrite (rcall_x gpr fitted value Hg (fst p) m k n (snd p) Fm Hk Hn Hp'). reflexivity.
    - split; [apply map2_len; [apply My|apply He]|]. destruct My as [Y1 Y2], He as [E1 E2]. apply Forall_forall. intros row Hin.
      apply (In_nth _ _ []) in Hin as (j & Hj & <-). rewrite map2_length' in Hj. rewrite (nth_map2 (map2 Rplus) ys es j [] [] []) by lia.
      apply map2_len; [apply (proj1 (Forall_forall _ _) Y2), nth_In; lia|apply (proj1 (Forall_forall _ _) E2), nth_In; lia].
    - intros j c Hj Hc. destruct My as [Y1 Y2], He as [E1 E2]. rewrite (nth_map2 (map2 Rplus) ys es j [] [] []) by lia.
      rewrite (nth_map2 Rplus _ _ c 0 0 0).
      + f_equal. unfold ys. rewrite (nth_map_in _ _ j []) by (destruct Hp'; lia). unfold unit_of. now apply nth_repeat_lt.
      + rewrite (proj1 (Forall_forall _ _) Y2); [exact Hc|apply nth_In; lia].
      + rewrite (proj1 (Forall_forall _ _) E2); [exact Hc|apply nth_In; lia].
  Qed.

  Lemma nfollows_of zd vd m ent seed fuel g : (1 <= m)%nat -> length zd = S m -> length vd = S m ->
    Forall (fun d => (1 <= d)%nat) zd -> Forall (fun d => (1 <= d)%nat) (tl vd) ->
    (exists g', section_5_2_cpds xreal w r gpr zd vd m ent seed fuel g = OutOfFuel g')
    \/ exists d g', section_5_2_cpds xreal w r gpr zd vd m ent seed fuel g = Returned d g'
         /\ (forall v, paper_var m v -> exists f, entry d v f) /\ exists L, nlaw_fits zd L /\ nfollows w zd vd m L d.
  Proof.
    intros Hm Lz Lv Dz Dv.
    destruct (section_5_2_shape zd vd m ent seed fuel g ltac:(lia) ltac:(lia) Dz Dv)
      as [H|(S & p0 & p1 & fy & fx & h & d & g1 & E & HS & D0 & D1 & Fy & Fx & HX & HY & HZ & HP)]; [now left|right].
    exists d, g1. split; [exact E|]. split.
    { intros v Hv. destruct Hv as [| | |i Hi|i Hi]; eexists; apply entry_sget; [exact HX|exact HY|exact HZ|apply (HP i Hi)|apply (HP i Hi)]. }
    exists (mkNLaw (fun i => value (nth (i - 1) fx (gp_new gpr))) (fun i => value (h i)) (fun i => value (nth (i - 0) fy (gp_new gpr))) S (fun b : bool => if b then p1 else p0)).
    split; [constructor; [exact HS|intros []; assumption]|].
    assert (Ly : length fy = Datatypes.S m) by (rewrite <- Lz; symmetry; eapply Forall2_length'; exact Fy).
    assert (Lx : length fx = m) by (apply Forall2_length' in Fx; rewrite <- Fx; destruct vd; [discriminate|cbn in Lv |- *; lia]).
    constructor; cbn [nl_x nl_z nl_y nl_support nl_prob].
    - intros i f Hi Hf n args gg es g' Ed2. apply entry_sget in Hf. destruct (HP i Hi) as (_ & H & _). rewrite H in Hf. injection Hf as <-. unfold v_cpd.
      pose proof (mv_noise_x w (repeat 0 (nth i vd 0%nat)) (diagonal 1 (nth i vd 0%nat)) n gg es g') as Em. rewrite repeat_length in Em.
      rewrite Em; [reflexivity|apply diagonal_matrix|exact Ed2].
    - intros i f Hi Hf n n' p gg es g' Hn Hp Hps Ed2 He. apply entry_sget in Hf. destruct (HP i Hi) as (Fi & _ & H). rewrite H in Hf. injection Hf as <-.
      apply z_cpd2_x; [exact Hps|exact Hn|apply nth_pos; [exact Dz|lia]|now rewrite Hp|exact Ed2|exact He].
    - intros f Hf n n' ps gg xs g' Hn Hps Hs' Eb Hx. apply entry_sget in Hf. rewrite HX in Hf. injection Hf as <-.
      rewrite (tl_dims vd m Lv) in Hps. rewrite <- Lx, map_nth_seq in Eb.
      apply x_cpd2_x with n; try assumption.
      + intros ->. cbn in Hps. apply Forall2_length' in Fx. rewrite <- Hps in Fx. cbn in Fx. lia.
      + apply Forall2_map_fst. now rewrite Hps.
    - intros f Hf n' bs gg rows g' Hne Hd. apply entry_sget in Hf. rewrite HZ in Hf. injection Hf as <-.
      match type of Hd with z0_draws _ (z0_part ?L) _ _ _ _ => exact (z0_cpd_draws w (z0_part L) (nth 0 zd 0%nat) HS n' bs gg rows g' Hne Hd) end.
    - intros f Hf n n' ps gg es g' Hn Hps Hs' Eb He. apply entry_sget in Hf. rewrite HY in Hf. injection Hf as <-.
      rewrite (all_dims zd m Lz) in Hps. rewrite <- Ly, map_nth_seq. apply y_cpd2_x; try assumption.
      + intros ->. cbn in Hps. rewrite <- Hps in Lz. discriminate.
      + apply Forall2_map_fst. now rewrite Hps.
  Qed.
End Follows2.
