(** Proofs about TabularCPD: prediction, histories, printing. *)
From Coq Require Import List Arith ZArith Bool Lia Permutation.
From Verif Require Import PyBase PyLemmas NumOps TabModel TabSpec TabProofs.
Import ListNotations.
Open Scope nat_scope.

Section Gen.
  Context {N : Type} (o : numops N).

  (** ** prediction *)
  Definition val (t : tab N) (x z : key) : N := cell o (row_of (t_table t) x) z.
  Lemma lookup_val t x z t' v : lookup o t x z = (t', v) ->
    v = val t x z /\ forall x' z', val t' x' z' = val t x' z'.
  Proof.
    unfold lookup. intros E. injection E as <- <-. split; [reflexivity|]. intros x' z'. unfold val. cbn.
    rewrite row_of_dset. destruct (key_eq x' x) as [->|]; [|reflexivity].
    rewrite cell_dset. destruct (key_eq z' z) as [->|]; reflexivity.
  Qed.
  Lemma predict_vals : forall xs zs t,
    snd (tab_predict o t xs zs) = map (fun q => val t (fst q) (snd q)) (combine xs zs)
    /\ forall x z, val (fst (tab_predict o t xs zs)) x z = val t x z.
  Proof.
    induction xs as [|x xs IH]; intros [|z zs] t; cbn [tab_predict combine map]; try (split; [reflexivity|auto]; fail).
    destruct (lookup o t x z) as [t1 v] eqn:E1. destruct (lookup_val _ _ _ _ _ E1) as [-> H1].
    specialize (IH zs t1). destruct (tab_predict o t1 xs zs) as [t2 vs]. cbn in *. destruct IH as [-> H2].
    split; [|intros; now rewrite H2]. f_equal. apply map_ext. intros q. apply H1.
  Qed.
  Lemma answer_val t x z : answer o t x z = [val t x z].
  Proof. reflexivity. Qed.
  Lemma predict_repeat t x zs : snd (tab_predict o t (repeat x (length zs)) zs) = map (val t x) zs.
  Proof.
    rewrite (proj1 (predict_vals _ _ _)). induction zs as [|z zs IH]; [reflexivity|]. simpl. now rewrite IH.
  Qed.
  Lemma predict_fields xs zs t t' : fst (tab_predict o t xs zs) = t' ->
    t_xs t' = t_xs t /\ t_zs t' = t_zs t /\ t_ratio t' = t_ratio t /\ t_min t' = t_min t /\ t_units t' = t_units t
    /\ t_xmarg t' = t_xmarg t.
  Proof.
    revert zs t t'. induction xs as [|x xs IH]; intros [|z zs] t t'; cbn [tab_predict];
      try (intros <-; repeat split; reflexivity).
    destruct (lookup o t x z) as [t1 v] eqn:E1. unfold lookup in E1. injection E1 as <- <-.
    match goal with |- context [tab_predict o ?t1 xs zs] => destruct (tab_predict o t1 xs zs) as [t2 vs] eqn:E2; specialize (IH zs t1 t2) end.
    intros <-. rewrite E2 in IH. apply (IH eq_refl).
  Qed.

  (** ** histories *)
  Lemma norm_rows_frame m xv : forall t t' e, norm_rows o t m xv = (t', e) ->
    t_xs t' = t_xs t /\ t_zs t' = t_zs t /\ t_ratio t' = t_ratio t /\ t_min t' = t_min t /\ t_units t' = t_units t.
  Proof.
    induction xv as [|x xv IH]; intros t t' e; cbn [norm_rows]; intros H.
    - injection H as <- <-. auto.
    - destruct (norm_row o t m x) as [t1 [e1|]] eqn:E1;
        destruct (norm_row_frame o _ _ _ _ _ E1) as (F1 & F2 & F3 & F4 & F5 & _).
      + injection H as <- <-. auto.
      + destruct (IH _ _ _ H) as (G1 & G2 & G3 & G4 & G5). repeat split; congruence.
  Qed.
  Lemma fit_fields t xs zs t' e : tab_fit o t xs zs = (t', e) ->
    t_ratio t' = t_ratio t
    /\ (length xs = length zs -> t_xs t' = fold_left remember xs (t_xs t) /\ t_zs t' = fold_left remember zs (t_zs t))
    /\ (length xs <> length zs -> t' = t /\ e = Some ValueError).
  Proof.
    unfold tab_fit. destruct (length xs =? length zs) eqn:El; cbn [negb].
    - apply Nat.eqb_eq in El. destruct (min_prob o _ _) as [m|e1].
      + intros H. destruct (norm_rows_frame _ _ _ _ _ H) as (G1 & G2 & G3 & G4 & G5). cbn in *. repeat split; auto; congruence.
      + intros H. injection H as <- <-. cbn. repeat split; auto; congruence.
    - apply Nat.eqb_neq in El. intros H. injection H as <- <-. repeat split; auto; congruence.
  Qed.
  Lemma reach_nodup ratio t : reach o ratio t -> NoDup (t_xs t) /\ NoDup (t_zs t) /\ t_ratio t = ratio.
  Proof.
    induction 1 as [|t xs zs H (I1 & I2 & I3)|t xs zs H (I1 & I2 & I3)].
    - cbn. repeat split; constructor.
    - destruct (tab_fit o t xs zs) as [t' e] eqn:E. destruct (fit_fields _ _ _ _ _ E) as (F1 & F2 & F3). cbn.
      destruct (Nat.eq_dec (length xs) (length zs)) as [El|El].
      + destruct (F2 El) as [-> ->]. repeat split; try (apply remember_all_nodup; assumption). congruence.
      + destruct (F3 El) as [-> _]. auto.
    - destruct (predict_fields xs zs t _ eq_refl) as (-> & -> & -> & _). auto.
  Qed.

  (** what a fit that returned tells about its input and its result *)
  Lemma fit_inv B (ex : exact_upto o B) ratio t xs zs t' :
    reach o ratio t -> tab_fit o t xs zs = (t', None) -> length xs <= B ->
    exists m, length xs = length zs /\ (forall x, In x (t_xs t) -> In x xs)
      /\ min_prob o (length (t_zs t')) ratio = Ok m /\ t_min t' = Some m
      /\ t_xs t' = fold_left remember xs (t_xs t) /\ t_zs t' = fold_left remember zs (t_zs t)
      /\ NoDup (t_zs t') /\ (forall z, In z zs -> In z (t_zs t'))
      /\ (forall x, In x xs ->
            (forall z, val t' x z
               = if in_dec key_eq z (t_zs t') then smoothed o m (freq o xs zs x) (t_zs t') z else nnat o 0)
            /\ dget (t_xmarg t') x = Some (ndiv o (nnat o (n_x xs x)) (nnat o (length xs))))
      /\ (forall x, ~ In x xs -> (forall z, val t' x z = nnat o 0) /\ dget (t_xmarg t') x = None).
  Proof.
    intros Hr Hf HB. destruct (reach_nodup _ _ Hr) as (Hdx & Hdz & Hra).
    assert (Hl : length xs = length zs).
    { destruct (Nat.eq_dec (length xs) (length zs)) as [|Hn]; [assumption|].
      destruct (proj2 (proj2 (fit_fields _ _ _ _ _ Hf)) Hn). discriminate. }
    assert (Hold : forall x, In x (t_xs t) -> In x xs).
    { intros x Hx. destruct (in_dec key_eq x xs) as [|Hn]; [assumption|].
      destruct (fit_missing o B ex t xs zs x Hl HB Hx Hn) as [t2 E]. congruence. }
    destruct (min_prob o (length (fold_left remember zs (t_zs t))) (t_ratio t)) as [m|e] eqn:Em.
    - destruct (fit_ok o B ex t xs zs m Hl HB Hdx Hdz Hold Em) as (t2 & E & F1 & F2 & F3 & F4 & F5 & F6 & F7).
      rewrite Hf in E. injection E as <-. exists m. rewrite F2 at 1. rewrite <- Hra.
      repeat split; auto.
      + rewrite F2. apply remember_all_nodup, Hdz.
      + intros z Hz. rewrite F2. apply remember_all_in. now left.
      + apply F6; assumption.
      + apply F6; assumption.
      + intros z. unfold val. rewrite (proj1 (F7 x H)). reflexivity.
      + apply F7, H.
    - exfalso. unfold tab_fit in Hf. rewrite (proj2 (Nat.eqb_eq _ _) Hl) in Hf. cbn [negb] in Hf. cbv zeta in Hf. cbn [t_zs] in Hf.
      rewrite Em in Hf. discriminate.
  Qed.

  (** ** printing *)
  Definition wf_row (zv : list key) (r : dict N) : Prop := forall z, In z (dkeys r) -> In z zv.
  Definition wf_table (xv zv : list key) (tb : dict (dict N)) : Prop :=
    forall x r, In (x, r) tb -> In x xv /\ wf_row zv r.
  Definition wf (t : tab N) : Prop := wf_table (t_xs t) (t_zs t) (t_table t).

  Lemma dset_in {A} (d : dict A) k v k' v' : In (k', v') (dset d k v) -> (k', v') = (k, v) \/ In (k', v') d.
  Proof.
    induction d as [|[a w] d IH]; simpl; [intuition congruence|].
    destruct (key_eq k a) as [->|]; simpl; [intuition congruence|]. intuition.
  Qed.
  Lemma wf_dset xv zv tb x r : wf_table xv zv tb -> In x xv -> wf_row zv r -> wf_table xv zv (dset tb x r).
  Proof. intros H Hx Hr x' r' Hi. apply dset_in in Hi as [E|Hi]; [injection E as -> ->; auto|apply H, Hi]. Qed.
  Lemma wf_row_dset zv r z v : wf_row zv r -> In z zv -> wf_row zv (dset r z v).
  Proof. intros H Hz z' Hi. apply dkeys_dset in Hi as [->|Hi]; auto. Qed.
  Lemma wf_row_of xv zv tb x : wf_table xv zv tb -> wf_row zv (row_of tb x).
  Proof.
    intros H. unfold row_of. destruct (dget tb x) as [r|] eqn:E; [|intros z []].
    apply dget_in in E. apply (H _ _ E).
  Qed.
  Lemma norm_cells_wf m s zv : forall zs row nv tot row' r,
    (forall z, In z zs -> In z zv) -> wf_row zv row -> norm_cells o m s zs row nv tot = (row', r) ->
    wf_row zv row' /\ match r with Ok (nv', _) => forall z, In z nv' -> In z nv \/ In z zv | Err _ => True end.
  Proof.
    induction zs as [|z zs IH]; intros row nv tot row' r Hz Hw; cbn [norm_cells].
    - intros H. injection H as <- <-. auto.
    - assert (Hz0 : In z zv) by (apply Hz; now left).
      assert (Hz1 : forall z, In z zs -> In z zv) by (intros; apply Hz; now right).
      assert (Hd : forall v, wf_row zv (dset row z v)) by (intros; now apply wf_row_dset).
      destruct (py_div o _ _) as [v|e]; [|intros H; injection H as <- <-; auto].
      cbv zeta. destruct (nltb o _ _); [now apply IH|]. destruct (nltb o _ _); [now apply IH|].
      intros H. destruct (IH _ _ _ _ _ Hz1 (Hd v) H) as [H1 H2]. split; [exact H1|].
      destruct r as [[nv' tot']|]; [|exact I]. intros z' Hz'. destruct (H2 z' Hz') as [Hi|Hi]; [|auto].
      apply in_app_iff in Hi as [Hi|[<-|[]]]; auto.
  Qed.
  Lemma adjust_wf zv c nv : forall row, (forall z, In z nv -> In z zv) -> wf_row zv row ->
    wf_row zv (fold_left (fun r z => dset r z (nsub o (cell o r z) c)) nv row).
  Proof.
    induction nv as [|z nv IH]; intros row Hz Hw; [exact Hw|]. cbn [fold_left]. apply IH.
    - intros; apply Hz; now right.
    - apply wf_row_dset; [exact Hw|apply Hz; now left].
  Qed.
  Lemma norm_row_wf m t x t' e : wf t -> In x (t_xs t) -> norm_row o t m x = (t', e) -> wf t'.
  Proof.
    unfold wf, norm_row. intros Hw Hx. pose proof (wf_row_of _ _ _ x Hw) as Hr.
    destruct (py_div o _ _) as [p|e1].
    - destruct (norm_cells _ _ _ _ _ _ _) as [row' r] eqn:E.
      destruct (norm_cells_wf _ _ (t_zs t) _ _ _ _ _ _ (fun z H => H) Hr E) as [H1 H2].
      destruct r as [[nv tot]|e2]; intros H; injection H as <- <-; cbn; apply wf_dset; auto.
      apply adjust_wf; [|exact H1]. intros z Hz. destruct (H2 z Hz) as [[]|]; auto.
    - intros H; injection H as <- <-; cbn. apply wf_dset; auto.
  Qed.
  Lemma norm_rows_wf m xv : forall t t' e, wf t -> (forall x, In x xv -> In x (t_xs t)) -> norm_rows o t m xv = (t', e) -> wf t'.
  Proof.
    induction xv as [|x xv IH]; intros t t' e Hw Hx; cbn [norm_rows].
    - intros H. injection H as <- <-. exact Hw.
    - destruct (norm_row o t m x) as [t1 [e1|]] eqn:E1;
        pose proof (norm_row_wf _ _ _ _ _ Hw (Hx x (or_introl eq_refl)) E1) as Hw1.
      + intros H. injection H as <- <-. exact Hw1.
      + apply IH; [exact Hw1|]. destruct (norm_row_frame o _ _ _ _ _ E1) as (_ & -> & _). intros; apply Hx; now right.
  Qed.
  Lemma fit_wf t xs zs t' e : length xs = length zs -> tab_fit o t xs zs = (t', e) -> wf t'.
  Proof.
    intros El. unfold tab_fit. rewrite (proj2 (Nat.eqb_eq _ _) El). cbn [negb].
    assert (Hw : wf_table (fold_left remember xs (t_xs t)) (fold_left remember zs (t_zs t)) (fold_left (count_unit o) (combine xs zs) [])).
    { assert (G : forall us tb, wf_table (fold_left remember xs (t_xs t)) (fold_left remember zs (t_zs t)) tb ->
        (forall u, In u us -> In (fst u) xs /\ In (snd u) zs) ->
        wf_table (fold_left remember xs (t_xs t)) (fold_left remember zs (t_zs t)) (fold_left (count_unit o) us tb)).
      { induction us as [|u us IH]; intros tb Hw Hu; [exact Hw|]. cbn [fold_left]. apply IH; [|intros; apply Hu; now right].
        destruct (Hu u (or_introl eq_refl)) as [H1 H2].
        unfold count_unit. apply wf_dset; [exact Hw|apply remember_all_in; now left|].
        apply wf_row_dset; [eapply wf_row_of, Hw|apply remember_all_in; now left]. }
      apply G; [intros x r []|]. intros [a b] Hu. split; [eapply in_combine_l, Hu|eapply in_combine_r, Hu]. }
    destruct (min_prob o _ _) as [m|e1].
    - apply norm_rows_wf; [exact Hw|auto].
    - intros H. injection H as <- <-. exact Hw.
  Qed.
  Lemma lookup_wf t x z : wf t -> In x (t_xs t) -> In z (t_zs t) -> wf (fst (lookup o t x z)).
  Proof. intros H Hx Hz. unfold wf. cbn. apply wf_dset; [exact H|exact Hx|]. apply wf_row_dset; [eapply wf_row_of, H|exact Hz]. Qed.
  Lemma predict_wf : forall xs zs t, wf t -> (forall q, In q (combine xs zs) -> In (fst q) (t_xs t) /\ In (snd q) (t_zs t)) ->
    wf (fst (tab_predict o t xs zs)).
  Proof.
    induction xs as [|x xs IH]; intros [|z zs] t Hw Hq; cbn [tab_predict]; try exact Hw.
    destruct (Hq (x, z) (or_introl eq_refl)) as [H1 H2]. cbn in H1, H2.
    pose proof (lookup_wf _ _ _ Hw H1 H2) as Hw1. destruct (lookup o t x z) as [t1 v] eqn:E1. cbn in Hw1.
    assert (Hx : t_xs t1 = t_xs t /\ t_zs t1 = t_zs t) by (unfold lookup in E1; injection E1 as <- <-; split; reflexivity).
    specialize (IH zs t1 Hw1). destruct (tab_predict o t1 xs zs) as [t2 vs]. cbn in *. apply IH.
    destruct Hx as [-> ->]. intros q Hi. apply Hq. now right.
  Qed.

  Lemma mapM_ok {X Y} (f : X -> res Y) l : (forall x, In x l -> exists y, f x = Ok y) -> exists ys, mapM f l = Ok ys.
  Proof.
    induction l as [|x l IH]; intros H; [exists []; reflexivity|].
    destruct (H x (or_introl eq_refl)) as [y Ey]. destruct IH as [ys Eys]; [intros; apply H; now right|].
    exists (y :: ys). cbn. rewrite Ey. cbn. rewrite Eys. reflexivity.
  Qed.
  Lemma mapM_err {X Y} (f : X -> res Y) l e0 : (forall x e, In x l -> f x = Err e -> e = e0) ->
    (exists x e, In x l /\ f x = Err e) -> mapM f l = Err e0.
  Proof.
    induction l as [|x l IH]; intros H (y & e & Hi & He); [destruct Hi|].
    cbn. destruct (f x) as [v|e'] eqn:E; cbn.
    - destruct Hi as [->|Hi]; [congruence|]. rewrite IH; [reflexivity|intros; eapply H; [right|]; eassumption|eauto].
    - f_equal. eapply H; [left; reflexivity|exact E].
  Qed.
  Definition print_cell (t : tab N) (zv : key * N) : res (key * N) :=
    if in_dec key_eq (fst zv) (t_zs t) then Ok zv else Err KeyError.
  Definition print_row (t : tab N) (xr : key * dict N) : res (key * list (key * N)) :=
    if in_dec key_eq (fst xr) (t_xs t)
    then do cells <- mapM (print_cell t) (snd xr); Ok (fst xr, cells)
    else Err KeyError.
  Lemma print_cell_err (t : tab N) q e : print_cell t q = Err e -> e = KeyError.
  Proof. unfold print_cell. destruct (in_dec _ _ _); congruence. Qed.
  Lemma print_row_err (t : tab N) q e : print_row t q = Err e -> e = KeyError.
  Proof.
    unfold print_row. destruct (in_dec _ _ _); [|congruence].
    assert (G : forall l e, mapM (print_cell t) l = Err e -> e = KeyError).
    { induction l as [|c l IH]; intros e'; cbn; [discriminate|].
      destruct (print_cell t c) eqn:E; cbn; [|intros H; injection H as <-; eapply print_cell_err, E].
      destruct (mapM (print_cell t) l) eqn:E2; cbn; [discriminate|intros H; injection H as <-; now apply IH]. }
    destruct (mapM (print_cell t) (snd q)) eqn:E; cbn; [discriminate|intros H; injection H as <-; now apply (G _ _ E)].
  Qed.
  Lemma str_wf (t : tab N) : wf t -> exists l, tab_str t = Ok l.
  Proof.
    intros Hw. apply (mapM_ok (print_row t)). intros [x r] Hi. destruct (Hw _ _ Hi) as [Hx Hr].
    unfold print_row. cbn. destruct (in_dec key_eq x (t_xs t)); [|contradiction].
    destruct (mapM_ok (print_cell t) r) as [ys ->]; [|cbn; eauto].
    intros [z v] Hz. unfold print_cell. cbn. destruct (in_dec key_eq z (t_zs t)) as [|Hn]; [eauto|].
    destruct Hn. apply Hr. apply in_map_iff. exists (z, v). auto.
  Qed.
  Lemma str_not_wf (t : tab N) x r : In (x, r) (t_table t) ->
    (~ In x (t_xs t) \/ exists z, In z (dkeys r) /\ ~ In z (t_zs t)) -> tab_str t = Err KeyError.
  Proof.
    intros Hi H. apply (mapM_err (print_row t)); [intros q e _; apply print_row_err|].
    exists (x, r), KeyError. split; [exact Hi|]. unfold print_row. cbn.
    destruct (in_dec key_eq x (t_xs t)) as [Hx|]; [|reflexivity].
    destruct H as [H|(z & Hz & Hn)]; [contradiction|].
    rewrite (mapM_err (print_cell t) r KeyError); [reflexivity|intros q e _; apply print_cell_err|].
    apply in_map_iff in Hz as ([z' v] & <- & Hz). exists (z', v), KeyError. split; [exact Hz|].
    unfold print_cell. cbn in *. destruct (in_dec key_eq z' (t_zs t)); [contradiction|reflexivity].
  Qed.

  (** a predicted pair is present in the table afterwards *)
  Definition has (t : tab N) (x z : key) : Prop := exists r, In (x, r) (t_table t) /\ In z (dkeys r).
  Lemma dget_dset_in {A} (d : dict A) k v : In (k, v) (dset d k v).
  Proof. apply dget_in, dget_dset_same. Qed.
  Lemma lookup_has t x z : has (fst (lookup o t x z)) x z.
  Proof. cbn. eexists. split; [apply dget_dset_in|]. apply dkeys_dset. now left. Qed.
  (** first occurrence semantics of [has]: through dget *)
  Definition has' (t : tab N) (x z : key) : Prop := exists r, dget (t_table t) x = Some r /\ In z (dkeys r).
  Lemma has'_has t x z : has' t x z -> has t x z.
  Proof. intros (r & H1 & H2). exists r. split; [now apply dget_in|exact H2]. Qed.
  Lemma lookup_has' t x z : has' (fst (lookup o t x z)) x z.
  Proof. cbn. eexists. split; [apply dget_dset_same|]. apply dkeys_dset. now left. Qed.
  Lemma lookup_keeps t x z x' z' : has' t x' z' -> has' (fst (lookup o t x z)) x' z'.
  Proof.
    intros (r & H1 & H2). unfold has'. cbn. destruct (key_eq x' x) as [->|Hn].
    - rewrite dget_dset_same. eexists. split; [reflexivity|]. apply dkeys_dset. right. unfold row_of. now rewrite H1.
    - rewrite dget_dset_other by exact Hn. eauto.
  Qed.
  Lemma predict_has : forall xs zs t x z, (In (x, z) (combine xs zs) \/ has' t x z) -> has' (fst (tab_predict o t xs zs)) x z.
  Proof.
    induction xs as [|a xs IH]; intros [|b zs] t x z H; cbn [tab_predict]; cbn [combine In] in H;
      try (destruct H as [[]|H]; exact H).
    pose proof (lookup_has' t a b) as Ha. pose proof (lookup_keeps t a b x z) as Hk.
    destruct (lookup o t a b) as [t1 v]. cbn in Ha, Hk.
    specialize (IH zs t1 x z). destruct (tab_predict o t1 xs zs) as [t2 vs]. cbn in *. apply IH.
    destruct H as [[E|H]|H]; [injection E as -> ->; auto|auto|auto].
  Qed.
End Gen.
