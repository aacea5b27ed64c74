(** A sample-splitting arm on generated batches: the units of the batches, redrawing the second fold. *)
From Coq Require Import List Arith ZArith Bool String Reals Permutation Lra Lia.
From Verif Require Import PyBase PyLemmas Num NumOps NumLaws DataModel ScmModel ScmProofs ScmProps TabModel TabSpec BanditModel ArmModel ArmSpec ParamModel ParamProofs ParamProofs2
  PaperModel PaperSpec PaperProofs PaperProofs2 PaperProofs3 ScmSpec LawSpec LawProofs LawProofs2 LawProofs3 LawProofs4 ParamSpec UtilProps2
  ScoreSpec ScoreProofs ScoreProofs2 ScoreProofs3 ScoreProofs4 ScoreProofs6 ScoreProofs7 SplitSpec SplitProofs SplitProofs2.
Import ListNotations.
Open Scope nat_scope.
Open Scope list_scope.

Lemma tapes_entries {W} (d : law W) k : forall g p, In (g, p) (tapes d k) -> Forall (fun w => exists q, In (w, q) d) g.
Proof.
  induction k as [|k IH]; intros g p H; cbn [tapes] in H.
  - destruct H as [[= <- <-]|[]]. constructor.
  - apply in_flat_map in H as ((w, q) & Hw & H). apply in_map_iff in H as ((t, r) & [= <- <-] & H). cbn [fst]. constructor; [now exists q|exact (IH t r H)].
Qed.
Lemma select_length {A} m : forall us : list A, List.length m = List.length us -> List.length (select m us) = chosen m.
Proof.
  induction m as [|b m IH]; intros [|u us] H; try discriminate H; [reflexivity|]. injection H as H. unfold chosen in *. cbn [select filter].
  destruct b; cbn [List.length]; now rewrite IH.
Qed.
Lemma seconds_length {A} n ms : Forall (fun m => List.length m = n) ms -> forall uss : list (list A), List.length uss = List.length ms ->
  Forall (fun us => List.length us = n) uss -> List.length (seconds ms uss) = list_sum (map chosen ms).
Proof.
  induction 1 as [|m ms Hm _ IH]; intros [|us uss] Hl Hu; try discriminate Hl; [reflexivity|]. inversion Hu; subst.
  unfold seconds. cbn [pieces List.concat map list_sum fold_right]. rewrite app_length, select_length by congruence. f_equal. apply IH; [now injection Hl|assumption].
Qed.
Lemma pieces_sizes {A} n c ms : Forall (fun m => List.length m = n /\ chosen m = c) ms -> forall uss : list (list A), List.length uss = List.length ms ->
  Forall (fun us => List.length us = n) uss -> List.length (pieces ms uss) = List.length ms /\ Forall (fun p => List.length p = c) (pieces ms uss).
Proof.
  induction 1 as [|m ms (Hm & Hc) _ IH]; intros [|us uss] Hl Hu; try discriminate Hl; [split; [reflexivity|constructor]|]. inversion Hu; subst.
  destruct (IH uss) as (E & F); [now injection Hl|assumption|]. cbn [pieces List.length]. split; [now rewrite E|]. constructor; [|exact F].
  apply select_length. congruence.
Qed.
Lemma skip_last {A} c (ps : list (list A)) : ps <> [] -> Forall (fun p => List.length p = c) ps ->
  skipn ((List.length ps - 1) * c) (List.concat ps) = last ps [].
Proof.
  intros Hne HF. induction HF as [|p ps Hp HF IH]; [congruence|]. destruct ps as [|p' ps].
  - cbn [List.length List.concat last Nat.sub Nat.mul skipn]. apply app_nil_r.
  - replace ((List.length (p :: p' :: ps) - 1) * c) with (List.length p + (List.length (p' :: ps) - 1) * c).
    + cbn [List.concat]. set (b := _ * c) in *. rewrite skipn_app, skipn_all2 by apply Nat.le_add_r. rewrite Nat.add_comm, Nat.add_sub. cbn [app]. change (last (p :: p' :: ps) []) with (last (p' :: ps) []).
      apply IH. discriminate.
    + cbn [List.length]. rewrite Hp. lia.
Qed.

Lemma vec_rows (f : nat -> X) n (a : arr X) : 1 <= n -> List.length (arows a) = n ->
  (forall u, u < n -> unit_row u a = vec [f u]) -> a = vec (map f (seq 0 n)).
Proof. exact (vec_units 0 3 (le_n 3) [] [] 0 (mkAC (arm_dim [] [] 0 0) 0 (Fin 0)) eq_refl f n a). Qed.

(** the average and the population variance as the arm computes them *)
Lemma reported_average (l : list R) : l <> [] -> nmean xreal (map Fin l) = Fin (average l).
Proof. intro H. rewrite (nmean_fin l H). reflexivity. Qed.
Lemma reported_variance (l : list R) : l <> [] ->
  nmean xreal (map (fun s => nsq xreal (nsub xreal s (nmean xreal (map Fin l)))) (map Fin l)) = Fin (pvar l).
Proof. intro H. exact (nvar_fin l H). Qed.

Section Batches.
  Context {W : Type} (w0 : W) (seeds : law W) (m k : nat).
  Hypothesis Hlaw : is_law seeds.
  Hypothesis Hk : 2 * m + 3 <= k.
  Context (cpds : sdict (cpd X (list (list W)))) (s : scm X (list (list W))).
  Hypothesis Hs : paper_scm m cpds = Ok s.
  Hypothesis Hu : forall v f, paper_var m v -> entry cpds v f -> unitwise w0 f.
  Context (zd vd : list nat).
  Hypothesis Hreg : regular (unit_tapes seeds 1 k) s 1 m zd vd.
  Context (j : nat).
  Hypothesis Hfit : dims_fit zd vd m.
  Context (x : list (list W) -> bool) (z : list (list W) -> list R) (y : list (list W) -> R).
  Notation TU := (unit_tapes seeds).
  Notation D := (unit_tapes seeds 1 k).
  Hypothesis Hone : one_unit D s (arm_mask zd vd m j) x z y.
  Notation ud := (unit_data (arm_dim zd vd m j) x z y).
  Notation tape_of := (of_unit w0).

  Lemma possible_units n g p : In (g, p) (TU n k) -> possible D (units_of w0 n g).
  Proof.
    intro Hin. apply Forall_forall. intros u Hi. apply in_map_iff in Hi as (i & <- & Hi). apply in_seq in Hi.
    apply (in_unit w0 seeds n k i g p); [lia|exact Hin].
  Qed.
  Lemma z_length g p : In (g, p) D -> List.length (z g) = arm_dim zd vd m j.
  Proof.
    intro Hin. destruct (Hone g p Hin) as (_ & _ & E).
    destruct (arm_data (tapes seeds 1) 1 m k Hk cpds s (KU seeds cpds 1) Hs (unit_draws w0 seeds m cpds Hu 1) zd vd Hreg j Hfit g p Hin)
      as (d & r & c & q & _ & _ & Ec & _ & _ & _ & _ & _ & Tc & _).
    rewrite Ec in E. injection E as ->. now injection Tc.
  Qed.

  Lemma batch_units n g p : 1 <= n -> In (g, p) (TU n k) ->
    select_fn (arm_mask zd vd m j) (batch s n g) = Ok (ud (units_of w0 n g)).
  Proof.
    intros Hn Hin.
    assert (HO : forall u, u < n -> drawn s 1 (tape_of u g) "X" = Some (vec [bit xreal (x (tape_of u g))]) /\
      drawn s 1 (tape_of u g) "Y" = Some (vec [Fin (y (tape_of u g))]) /\
      seen s 1 (arm_mask zd vd m j) (tape_of u g) = Some (mkArr [List.length (z (tape_of u g))] [map Fin (z (tape_of u g))])).
    { intros u Hu'. destruct (in_unit w0 seeds n k u g p Hu' Hin) as (q & Hq). exact (Hone _ q Hq). }
    destruct (unit_seen w0 seeds m k Hk cpds s Hs Hu zd vd Hreg j Hfit n g p Hn Hin) as (c & Ec & Tc & Lc & Rc).
    destruct (arm_data (tapes seeds n) n m k Hk cpds s (KU seeds cpds n) Hs (unit_draws w0 seeds m cpds Hu n) zd vd
      (unit_regular w0 seeds m k Hk cpds s Hs Hu zd vd Hreg n Hn) j Hfit g p Hin)
      as (d & r & c' & q & Ed & Er & Ec' & Hc & Hx & Hy & Hnu & Hnf & _).
    rewrite Ec in Ec'. injection Ec' as <-.
    unfold batch. rewrite Ed, Er. f_equal. unfold unit_data, units_of.
    destruct r as [rc rx ry rn rf]. cbn [dcov dexp drsp n_units n_features] in *. subst rc rn rf.
    f_equal.
    - f_equal. apply arr_ext; [exact Tc|cbn [arows]; now rewrite !map_length, seq_length|].
      intros u Hu'. rewrite Lc in Hu'. destruct (HO u Hu') as (_ & _ & Es). rewrite (Rc u Hu') in Es. injection Es as _ E.
      unfold row. rewrite E. cbn [arows]. rewrite map_map.
      rewrite (nth_indep _ [] (map Fin (z (tape_of 0 g)))) by now rewrite map_length, seq_length.
      rewrite (map_nth (fun u => map Fin (z (tape_of u g)))), seq_nth by exact Hu'. reflexivity.
    - rewrite Hx. destruct (unit_drawn w0 seeds m k Hk cpds s Hs Hu n g p "X" Hn Hin ltac:(constructor)) as (b & -> & Hl & Hun). f_equal.
      unfold bits. rewrite !map_map. apply vec_rows; trivial. intros u Hu'.
      destruct (HO u Hu') as (E & _). rewrite (Hun u Hu') in E. congruence.
    - rewrite Hy. destruct (unit_drawn w0 seeds m k Hk cpds s Hs Hu n g p "Y" Hn Hin ltac:(constructor)) as (b & -> & Hl & Hun). f_equal.
      rewrite !map_map. apply (vec_rows (fun u => Fin (y (tape_of u g)))); trivial. intros u Hu'.
      destruct (HO u Hu') as (_ & E & _). rewrite (Hun u Hu') in E. congruence.
    - now rewrite map_length, seq_length.
  Qed.

  (** *** the arm *)
  Context {M P Q : Type} (vnone : X) (la : linalg X) (pr : predictor X M) (pp : predictor X P) (cf : aipw_conf X) (w : arm_world X Q) (opts : ss_opts X).
  Hypothesis Hlo : ac_overlap cf = Fin (1/4).
  Hypothesis Hdim : ac_dim cf = arm_dim zd vd m j.
  Hypothesis Hp : fair_perm w.
  Context (a0 : arm X X (aipw X M P)) (q0 : Q) (n : nat) (deltas : list X).
  Hypothesis Ha0 : ar_split a0 = None.
  Hypothesis Hn : 2 <= n.
  Hypothesis Hds : deltas <> [].
  Hypothesis Hv : Forall (fun e => valid_delta xreal e = true) deltas.
  Hypothesis Hlearn : learns D x z y pr pp cf (ar_eta a0).
  Notation tr := (select_fn (arm_mask zd vd m j)).
  Notation TR := (trained D x z y pr pp cf (ar_eta a0)).
  Definition F (st : aipw X M P) := unit_score_of pr pp cf s (arm_mask zd vd m j) st.
  (** the score of a unit is a function of its tape *)
  Hypothesis Hcore : forall st mu e, fitted pr pp cf st mu e -> (right_response D x z y mu \/ right_propensity D x z (1/4) e) ->
    forall g p, In (g, p) D -> arm_scores pr pp cf st s 1 (arm_mask zd vd m j) g = Ok [Fin (score_of (1/4) mu e (x g) (z g) (y g))].

  Lemma unit_score_is st mu e : fitted pr pp cf st mu e -> (right_response D x z y mu \/ right_propensity D x z (1/4) e) ->
    forall g p, In (g, p) D -> F st g = score_of (1/4) mu e (x g) (z g) (y g).
  Proof. intros Hft Hor g p Hin. unfold F, unit_score_of. now rewrite (Hcore st mu e Hft Hor g p Hin). Qed.

  Lemma fold_scores st us : TR st -> possible D us -> aipw_enough st = true ->
    aipw_score xreal pr pp cf st (unit_data (ac_dim cf) x z y us) = Ok (map Fin (map (F st) us)).
  Proof.
    intros Ht Hus Hen. destruct (Hlearn st Ht) as (_ & H). destruct (H Hen) as (mu & e & Hft & Hor). pose proof Hft as (_ & Hmu & He).
    rewrite (aipw_score_x pr pp cf (1/4) Hlo (proj1 quarter) (proj2 quarter) z x y st _ us mu e); trivial.
    - rewrite map_map. f_equal. apply map_ext_in. intros u Hi. unfold possible in Hus. rewrite Forall_forall in Hus. destruct (Hus u Hi) as (p & Hin).
      now rewrite (unit_score_is st mu e Hft Hor u p Hin).
    - unfold dataset, unit_data. cbn [dcov dexp drsp n_units n_features]. unfold bits. rewrite !map_length. repeat (split; [reflexivity|]).
      apply Forall_forall. intros r Hr. apply in_map_iff in Hr as (u & <- & Hi). rewrite map_length. unfold possible in Hus. rewrite Forall_forall in Hus.
      destruct (Hus u Hi) as (p & Hin). rewrite Hdim. exact (z_length u p Hin).
  Qed.

  Notation T := (List.length deltas).
  Notation ms := (seconds_of w q0 n T).
  Definition N1 : nat := (if so_stable opts then T else 1) * (n / 2).
  (** the units skipped by an arm that drops the data of earlier updates *)
  Definition old : nat := if so_stable opts then 0 else (T - 1) * (n / 2).
  Definition kept (uss : list (list (list (list W)))) : list (list (list W)) := skipn old (seconds ms uss).
  Notation after := (after_updates vnone la pr pp cf w opts (arm_mask zd vd m j) a0 q0 s n deltas).
  Notation L := (tapes (TU n k) T).
  Definition learnt (uss : list (list (list (list W)))) : aipw X M P := fits pr pp cf opts x z y (ar_eta a0) [] (firsts ms uss).

  Lemma N1_pos : 1 <= N1.
  Proof.
    unfold N1. assert (1 <= n / 2) by (apply Nat.div_le_lower_bound; lia).
    destruct deltas as [|? ?]; [congruence|]. cbn [List.length]. destruct (so_stable opts); nia.
  Qed.

  Lemma after_spec gs p : In (gs, p) L ->
    let uss := map (units_of w0 n) gs in
    TR (learnt uss) /\ ar_eta (after gs) = learnt uss /\ reported (after gs) = aipw_enough (learnt uss) /\
    (aipw_enough (learnt uss) = true -> as_real (ar_ate (after gs)) = Some (average (map (F (learnt uss)) (kept uss))) /\
       as_real (ar_var (after gs)) = Some (pvar (map (F (learnt uss)) (kept uss)))).
  Proof.
    intros Hin uss. pose proof (tapes_length _ _ _ _ Hin) as Hlen. pose proof (tapes_entries _ _ _ _ Hin) as Hent.
    assert (HF : Forall2 (fun d us => tr d = Ok (unit_data (ac_dim cf) x z y us) /\ List.length us = n /\ Forall (fun u => exists p, In (u, p) D) us) (map (batch s n) gs) uss).
    { unfold uss. clear - Hent Hdim Hn Hone Hk Hs Hu Hreg Hfit. induction Hent as [|g gs (q & Hg) _ IH]; [constructor|]. cbn [map]. constructor; [|exact IH].
      rewrite Hdim. split; [apply (batch_units n g q); [lia|exact Hg]|]. split; [unfold units_of; now rewrite map_length, seq_length|]. exact (possible_units n g q Hg). }
    destruct (feed_units vnone la pr pp cf w tr opts x z y Hp (fun u => exists p, In (u, p) D) TR) with
      (n := n) (ds := map (batch s n) gs) (uss := uss) (deltas := deltas) (a := a0) (A := @nil (list (list W))) (B := @nil (list (list W))) (q := q0)
      as (Hh & He & Ht & Hr); trivial.
    - intros h us Hh Hus. destruct (Hlearn h Hh) as (Hf & _). split; [now apply Hf|now constructor].
    - intros h us Hh Hus Hen. eexists. now apply fold_scores.
    - now rewrite map_length.
    - right. now split.
    - constructor.
    - right. intro E. apply map_eq_nil in E. subst gs. destruct deltas; [congruence|discriminate Hlen].
    - fold (after gs) in Hh, He, Ht, Hr. assert (Eu : List.length uss = T) by (unfold uss; now rewrite map_length). rewrite Eu in Hh, He.
      change (fits pr pp cf opts x z y (ar_eta a0) [] (firsts ms uss)) with (learnt uss) in He. cbn [app] in Hh.
      assert (Hus : Forall (fun us => List.length us = n) uss).
      { unfold uss. apply Forall_forall. intros us Hi. apply in_map_iff in Hi as (g & <- & _). unfold units_of. now rewrite map_length, seq_length. }
      assert (Hall : List.length (seconds ms uss) = T * (n / 2)).
      { destruct (seconds_of_sizes w Hp q0 n T) as (S1 & S2). rewrite (seconds_length n ms S1 uss); trivial. now rewrite seconds_of_length. }
      assert (HT : 1 <= T) by (clear - Hds; destruct deltas; [congruence|cbn; lia]).
      assert (Hkept : grow opts [] (pieces ms uss) = kept uss).
      { unfold kept, old. destruct (so_stable opts) eqn:Eo; [now rewrite (grow_all opts [] _ Eo)|].
        assert (Hms : Forall (fun m => List.length m = n /\ chosen m = n / 2) ms).
        { clear - Hp. generalize T. intro t. revert q0. induction t as [|t IH]; intro q; [constructor|]. cbn [seconds_of]. constructor; [|apply IH].
          split; [apply second_length|apply second_chosen]; exact Hp. }
        destruct (pieces_sizes n (n / 2) ms Hms uss) as (P1 & P2); [now rewrite seconds_of_length|exact Hus|].
        rewrite seconds_of_length in P1. assert (Hne : pieces ms uss <> []) by (intro E; rewrite E in P1; cbn in P1; lia).
          rewrite (grow_last opts [] _ Eo Hne). unfold seconds. rewrite <- P1 at 2. symmetry. now apply skip_last. }
      rewrite Hkept in Hh.
      assert (Hsec : List.length (kept uss) = N1).
      { unfold kept. rewrite skipn_length, Hall. unfold old, N1. destruct (so_stable opts); nia. }
      assert (Hpos0 : possible D (seconds ms uss)).
      { unfold possible, seconds. generalize ms. clear - HF. generalize dependent (map (batch s n) gs). intros ds HF. induction HF as [|d us ds uss (_ & _ & H) _ IH]; intros [|b l]; cbn [pieces List.concat]; try constructor.
        apply Forall_app. split; [now apply good_select|apply IH]. }
      assert (Hpos : possible D (kept uss)).
      { unfold kept, possible. rewrite <- (firstn_skipn old (seconds ms uss)) in Hpos0. now apply Forall_app in Hpos0. }
      destruct Hr as (f0 & f1 & Hsp & Hr0 & Hr1). rewrite He in Ht, Hr0, Hr1.
      split; [exact Ht|]. split; [exact He|].
      destruct (aipw_enough (learnt uss)) eqn:En.
      + assert (Ef : f1 = unit_data (ac_dim cf) x z y (kept uss)).
        { destruct Hh as [Hh|(Hh & _)]; rewrite Hsp in Hh; [|discriminate]. now injection Hh. }
        subst f1. pose proof (fold_scores (learnt uss) (kept uss) Ht Hpos En) as Esc.
        destruct (Hr1 eq_refl _ Esc) as (E1 & E2).
        assert (Hne : map (F (learnt uss)) (kept uss) <> []).
        { intro E. apply map_eq_nil in E. rewrite E in Hsec. pose proof N1_pos. cbn [List.length] in Hsec. lia. }
        rewrite (reported_average _ Hne) in E1. rewrite (reported_variance _ Hne) in E2.
        unfold reported. rewrite E1, E2. cbn [as_real]. auto.
      + destruct (Hr0 eq_refl) as (E1 & E2). unfold reported. rewrite E1. cbn [as_real]. split; [reflexivity|discriminate].
  Qed.

  (** drawing the second fold again after the last fit *)
  Lemma redraw (Phi : aipw X M P -> list (list (list W)) -> R) (c : aipw X M P -> R) :
    (forall st, TR st -> aipw_enough st = true -> mean (tapes D N1) (Phi st) = c st) ->
    mean L (fun gs => let uss := map (units_of w0 n) gs in if aipw_enough (learnt uss) then Phi (learnt uss) (kept uss) else 0%R) =
    mean L (fun gs => let uss := map (units_of w0 n) gs in if aipw_enough (learnt uss) then c (learnt uss) else 0%R).
  Proof.
    intro HPhi. cbn zeta.
    assert (HT : forall uss p, In (uss, p) (tapes (tapes D n) T) -> TR (learnt uss)).
    { intros uss p Hin. apply tapes_entries in Hin. unfold learnt.
      assert (Hpos : Forall (possible D) uss).
      { revert Hin. apply Forall_impl. intros us (q & Hq). exact (tapes_entries _ _ _ _ Hq). }
      enough (H : forall ms h A, TR h -> possible D A -> TR (fits pr pp cf opts x z y h A (firsts ms uss))).
      { apply H; constructor. }
      clear - Hpos.
      induction Hpos as [|us uss Hus _ IH]; intros [|b ms] h A Hh HA; cbn [firsts fits]; trivial.
      assert (HA' : possible D (keep opts A ++ select (map negb b) us)) by (apply Forall_app; split; [now apply good_keep|now apply good_select]).
      apply IH; [now constructor|exact HA']. }
    rewrite (pushes_tapes _ _ _ (units_law w0 seeds n k) T (fun uss => if aipw_enough (learnt uss) then Phi (learnt uss) (kept uss) else 0%R)).
    rewrite (pushes_tapes _ _ _ (units_law w0 seeds n k) T (fun uss => if aipw_enough (learnt uss) then c (learnt uss) else 0%R)).
    destruct (seconds_of_sizes w Hp q0 n T) as (S1 & S2).
    pose proof (selects_law D (tapes_law _ k (tapes_law seeds 1 Hlaw)) n ms S1 (fun ps b => let st := fits pr pp cf opts x z y (ar_eta a0) [] ps in if aipw_enough st then Phi st (skipn old b) else 0%R)) as HS.
    rewrite seconds_of_length, S2 in HS. cbn zeta in HS. unfold learnt at 1 2, kept. rewrite HS. clear HS.
    apply mean_ext_in. intros uss p Hin. specialize (HT uss p Hin). unfold learnt in HT |- *.
    destruct (aipw_enough _) eqn:En; [|apply mean_zero].
    replace (T * (n / 2)) with (old + N1).
    - rewrite (skip_law D (tapes_law _ k (tapes_law seeds 1 Hlaw)) old N1). now apply HPhi.
    - unfold old, N1. clear - Hds. destruct deltas as [|? l]; [congruence|]. destruct (so_stable opts); cbn [List.length]; nia.
  Qed.

  Context (tau : R).
  Hypothesis Htau : forall st, TR st -> aipw_enough st = true -> mean D (F st) = tau.

  Lemma split_unbiased : mean L (fun gs => if reported (after gs) then or_zero (as_real (ar_ate (after gs))) else 0%R) =
    (tau * prob L (fun gs => reported (after gs)))%R.
  Proof.
    transitivity (mean L (fun gs => let uss := map (units_of w0 n) gs in if aipw_enough (learnt uss) then tau else 0%R)).
    - rewrite <- (redraw (fun st b => average (map (F st) b)) (fun _ => tau)).
      + apply mean_ext_in. intros gs p Hin. cbn zeta. destruct (after_spec gs p Hin) as (_ & _ & -> & H).
        destruct (aipw_enough _); [|reflexivity]. now destruct (H eq_refl) as (-> & _).
      + intros st Ht Hen. rewrite (average_tapes D (tapes_law _ k (tapes_law seeds 1 Hlaw)) (F st) N1 N1_pos). now apply Htau.
    - unfold prob. rewrite <- mean_scal. apply mean_ext_in. intros gs p Hin. cbn zeta. destruct (after_spec gs p Hin) as (_ & _ & -> & _).
      destruct (aipw_enough _); lra.
  Qed.
  Lemma split_variance : mean L (fun gs => if reported (after gs) then or_zero (as_real (ar_var (after gs))) else 0%R) =
    ((1 - 1 / INR N1) * mean L (fun gs => if reported (after gs) then variance D (F (ar_eta (after gs))) else 0))%R.
  Proof.
    rewrite <- mean_scal.
    transitivity (mean L (fun gs => let uss := map (units_of w0 n) gs in if aipw_enough (learnt uss) then ((1 - 1 / INR N1) * variance D (F (learnt uss)))%R else 0%R)).
    - rewrite <- (redraw (fun st b => pvar (map (F st) b)) (fun st => ((1 - 1 / INR N1) * variance D (F st))%R)).
      + apply mean_ext_in. intros gs p Hin. cbn zeta. destruct (after_spec gs p Hin) as (_ & _ & -> & H).
        destruct (aipw_enough _); [|reflexivity]. now destruct (H eq_refl) as (_ & ->).
      + intros st Ht Hen. exact (pvar_tapes D (tapes_law _ k (tapes_law seeds 1 Hlaw)) (F st) N1 N1_pos).
    - apply mean_ext_in. intros gs p Hin. cbn zeta. destruct (after_spec gs p Hin) as (_ & -> & -> & _).
      destruct (aipw_enough _); lra.
  Qed.

  (** the squared error of the average *)
  Lemma split_mse : mean L (fun gs => if reported (after gs) then ((or_zero (as_real (ar_ate (after gs))) - tau) ^ 2)%R else 0%R) =
    (mean L (fun gs => if reported (after gs) then variance D (F (ar_eta (after gs))) else 0) / INR N1)%R.
  Proof.
    unfold Rdiv. rewrite <- mean_scal_r.
    transitivity (mean L (fun gs => let uss := map (units_of w0 n) gs in if aipw_enough (learnt uss) then (variance D (F (learnt uss)) * / INR N1)%R else 0%R)).
    - rewrite <- (redraw (fun st b => ((average (map (F st) b) - tau) ^ 2)%R) (fun st => (variance D (F st) * / INR N1)%R)).
      + apply mean_ext_in. intros gs p Hin. cbn zeta. destruct (after_spec gs p Hin) as (_ & _ & -> & H).
        destruct (aipw_enough _); [|reflexivity]. now destruct (H eq_refl) as (-> & _).
      + intros st Ht Hen. rewrite <- (Htau st Ht Hen). exact (average_square D (tapes_law _ k (tapes_law seeds 1 Hlaw)) (F st) N1 N1_pos).
    - apply mean_ext_in. intros gs p Hin. cbn zeta. destruct (after_spec gs p Hin) as (_ & -> & -> & _).
      destruct (aipw_enough _); lra.
  Qed.
  Lemma split_mse_est : 2 <= N1 -> mean L (fun gs => if reported (after gs) then ((or_zero (as_real (ar_ate (after gs))) - tau) ^ 2)%R else 0%R) =
    mean L (fun gs => if reported (after gs) then (or_zero (as_real (ar_var (after gs))) / (INR N1 - 1))%R else 0%R).
  Proof.
    intro H2. apply le_INR in H2. cbn [INR] in H2. rewrite split_mse.
    rewrite (mean_ext L (fun gs => if reported (after gs) then (or_zero (as_real (ar_var (after gs))) / (INR N1 - 1))%R else 0%R)
      (fun gs => ((if reported (after gs) then or_zero (as_real (ar_var (after gs))) else 0) * / (INR N1 - 1))%R)).
    - rewrite mean_scal_r, split_variance. field. lra.
    - intro gs. destruct (reported _); unfold Rdiv; lra.
  Qed.
  Lemma split_mse_le B : (forall st, TR st -> aipw_enough st = true -> (variance D (F st) <= B)%R) -> (0 <= B)%R ->
    (mean L (fun gs => if reported (after gs) then ((or_zero (as_real (ar_ate (after gs))) - tau) ^ 2)%R else 0%R) <= B / INR N1)%R.
  Proof.
    intros HB HB0. rewrite split_mse. unfold Rdiv. apply Rmult_le_compat_r.
    { apply Rlt_le, Rinv_0_lt_compat, lt_0_INR. exact N1_pos. }
    destruct (tapes_law _ T (tapes_law _ k (tapes_law seeds n Hlaw))) as (Hnn & Hsum).
    rewrite <- (mean_const L B) by exact Hsum.
    apply Rle_trans with (mean L (fun gs => let uss := map (units_of w0 n) gs in if aipw_enough (learnt uss) then (if Rle_dec (variance D (F (learnt uss))) B then variance D (F (learnt uss)) else B) else 0%R)).
    - apply Req_le, mean_ext_in. intros gs p Hin. cbn zeta. destruct (after_spec gs p Hin) as (Ht & -> & -> & _).
      destruct (aipw_enough _) eqn:En; [|reflexivity]. destruct (Rle_dec _ _) as [_|C]; [reflexivity|]. exfalso. now apply C, HB.
    - apply mean_le; [exact Hnn|]. intro gs. cbn zeta. destruct (aipw_enough _); [|exact HB0]. destruct (Rle_dec _ _); lra.
  Qed.
  Lemma split_far eps : (0 < eps)%R ->
    (prob L (fun gs => reported (after gs) && if Rle_dec eps (Rabs (or_zero (as_real (ar_ate (after gs))) - tau)) then true else false) <=
     mean L (fun gs => if reported (after gs) then ((or_zero (as_real (ar_ate (after gs))) - tau) ^ 2)%R else 0%R) / eps ^ 2)%R.
  Proof.
    intro He. destruct (tapes_law _ T (tapes_law _ k (tapes_law seeds n Hlaw))) as (Hnn & _).
    apply Rle_trans with (prob L (fun gs => if Rle_dec eps (Rabs (if reported (after gs) then or_zero (as_real (ar_ate (after gs))) - tau else 0)) then true else false)).
    - apply mean_le; [exact Hnn|]. intro gs. destruct (reported _); cbn [andb]; [lra|]. destruct (Rle_dec _ _); lra.
    - eapply Rle_trans; [apply (chebyshev L (fun gs => if reported (after gs) then or_zero (as_real (ar_ate (after gs))) - tau else 0)%R eps Hnn He)|].
      apply Req_le. f_equal. apply mean_ext. intro gs. destruct (reported _); [reflexivity|]. lra.
  Qed.
End Batches.
