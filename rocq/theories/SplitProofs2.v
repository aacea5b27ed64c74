(** A sample-splitting arm with AIPW fed with datasets of units: which units are in which fold, and
    what it reports. *)
From Coq Require Import List Arith ZArith Bool String Reals Permutation Lra Lia.
From Verif Require Import PyBase PyLemmas Num NumOps DataModel DataSpec DataProofs DataProofs2 ArmModel ArmSpec ArmProofs1 ArmProofs2 ArmProofs3
  TabModel TabSpec BanditModel ParamModel ParamSpec PaperModel LawSpec ScoreSpec SplitSpec SplitProofs.
Import ListNotations.
Open Scope nat_scope.
Open Scope list_scope.

Lemma count_perm (f : nat -> bool) l l' : Permutation l l' -> List.length (filter f l) = List.length (filter f l').
Proof.
  induction 1 as [|a l l' _ IH|a b l|]; cbn [filter]; [reflexivity| | |congruence].
  - destruct (f a); cbn [List.length]; now rewrite IH.
  - destruct (f a), (f b); reflexivity.
Qed.
Lemma count_odd n : List.length (filter (fun f => f =? 1) (map (fun j => j mod 2) (seq 0 n))) = n / 2.
Proof.
  induction n as [|n IH]; [reflexivity|]. rewrite seq_S, map_app, filter_app, app_length, IH. cbn [Nat.add map filter].
  pose proof (Nat.div_mod n 2 ltac:(lia)) as A. pose proof (Nat.div_mod (S n) 2 ltac:(lia)) as B.
  pose proof (Nat.mod_upper_bound n 2 ltac:(lia)) as C. pose proof (Nat.mod_upper_bound (S n) 2 ltac:(lia)) as D.
  destruct (Nat.eqb_spec (n mod 2) 1); cbn [List.length]; lia.
Qed.
Lemma count_map (f : nat -> bool) l : List.length (filter (fun b => b) (map f l)) = List.length (filter f l).
Proof. induction l as [|a l IH]; [reflexivity|]. cbn [map filter]. destruct (f a); cbn [List.length]; now rewrite IH. Qed.

Section Arm.
  Context {U M P Q : Type} (vnone : X) (la : linalg X) (pr : predictor X M) (pp : predictor X P) (cf : aipw_conf X) (w : arm_world X Q)
    (tr : expdata X -> res (expdata X)) (opts : ss_opts X).
  Context (x : U -> bool) (z : U -> list R) (y : U -> R).
  Hypothesis Hp : fair_perm w.
  Notation eo := (aipw_ops (G := Q) xreal pr pp la cf).
  Notation ud := (unit_data (ac_dim cf) x z y).
  Notation upd := (ss_update xreal vnone eo w tr opts).
  Notation ARM := (arm X X (aipw X M P)).

  Lemma append_units A B : append vnone (ud A) (ud B) = (ud (A ++ B), None).
  Proof.
    unfold append, unit_data. cbn [n_features dcov dexp drsp n_units]. rewrite Nat.eqb_refl. cbn [negb].
    unfold np_r, append_field. cbn [r_operand atail arows bind].
    destruct (list_eq_dec Nat.eq_dec [ac_dim cf] [ac_dim cf]) as [_|C]; [|congruence]. cbn [bind].
    unfold np_r, vec. cbn [r_operand atail arows bind].
    destruct (list_eq_dec Nat.eq_dec [] []) as [_|C]; [|congruence]. cbn [bind].
    f_equal. unfold bits, alen. cbn [arows]. rewrite !map_app, !app_length, !map_length. reflexivity.
  Qed.
  Lemma fold_units m us : List.length m = List.length us -> fold_by (ud us) m = Ok (ud (select m us)).
  Proof.
    intro Hl. unfold unit_data. rewrite (fold_by_ok _ m (mkArr [ac_dim cf] (map (fun u => map Fin (z u)) us))).
    - unfold folded, ed_init. cbn [dcov dexp drsp option_map atail arows vec alen afeatures].
      unfold bits, vec. cbn [atail arows]. rewrite !select_map. unfold alen. cbn [arows]. now rewrite map_length.
    - reflexivity.
    - cbn [arows]. now rewrite map_length.
    - cbn. unfold bits. now rewrite !map_length.
    - cbn. now rewrite !map_length.
  Qed.

  (** the labels of a split and the units of the second fold *)
  Definition ids (n : nat) : list nat := map (fun j => j mod 2) (seq 0 n).
  Definition second (q : Q) (n : nat) : list bool := map (fun f => f =? 1) (fst (aw_perm w q (ids n))).
  Definition next (q : Q) (n : nat) : Q := snd (aw_perm w q (ids n)).
  Lemma second_length q n : List.length (second q n) = n.
  Proof. unfold second. rewrite map_length, (Permutation_length (Hp q (ids n))). unfold ids. now rewrite map_length, seq_length. Qed.
  Lemma second_chosen q n : chosen (second q n) = n / 2.
  Proof. unfold chosen, second. rewrite count_map, (count_perm _ _ _ (Hp q (ids n))). apply count_odd. Qed.
  Lemma first_mask q n : map (fun f => f =? 0) (fst (aw_perm w q (ids n))) = map negb (second q n).
  Proof.
    unfold second. rewrite map_map. apply map_ext_in. intros f Hf.
    apply (Permutation_in _ (Hp q (ids n))) in Hf. unfold ids in Hf. apply in_map_iff in Hf as (j & <- & _).
    pose proof (Nat.mod_upper_bound j 2 ltac:(lia)). destruct (Nat.eqb_spec (j mod 2) 0), (Nat.eqb_spec (j mod 2) 1); trivial; lia.
  Qed.

  Lemma split_units d us q : tr d = Ok (ud us) ->
    split_new w tr d q = (Ok [ud (select (map negb (second q (List.length us))) us); ud (select (second q (List.length us)) us)], next q (List.length us)).
  Proof.
    intro E. unfold split_new. rewrite E. cbn [n_units unit_data]. fold (ids (List.length us)). f_equal.
    rewrite k_fold_unfold by lia. unfold fold_mask. change (Z.to_nat 2) with 2. cbn [n_units unit_data]. fold (ids (List.length us)). fold (ud us).
    cbn [seq mapM]. rewrite first_mask. fold (second q (List.length us)).
    rewrite !fold_units by (rewrite ?map_length; apply second_length). reflexivity.
  Qed.

  (** what is kept of a fold when new data comes *)
  Definition keep (A : list U) : list U := if so_stable opts then A else [].
  (** an arm with the units [A] in the first fold and [B] in the second *)
  Definition holds (a : ARM) (A B : list U) : Prop :=
    ar_split a = Some [ud A; ud B] \/ (ar_split a = None /\ A = [] /\ B = []).

  Lemma absorb_units (a : ARM) A B d delta q us : holds a A B -> valid_delta xreal delta = true -> tr d = Ok (ud us) ->
    exists a1, absorb xreal vnone w tr (so_stable opts) a d delta q = ((a1, next q (List.length us)), None) /\
      ar_split a1 = Some [ud (keep A ++ select (map negb (second q (List.length us))) us); ud (keep B ++ select (second q (List.length us)) us)].
  Proof.
    intros Ha Hd E. unfold valid_delta in Hd. unfold absorb. rewrite Hd. cbn [negb]. rewrite (split_units d us q E). unfold keep.
    destruct Ha as [Ha|(Ha & -> & ->)]; rewrite Ha; destruct (so_stable opts).
    - cbn [append_folds]. rewrite !append_units. eexists. split; reflexivity.
    - eexists. split; reflexivity.
    - eexists. split; reflexivity.
    - eexists. split; reflexivity.
  Qed.

  Lemma score1_eta (a a' : ARM) r : score1 eo a = (a', r) -> ar_eta a' = ar_eta a.
  Proof.
    unfold score1. destruct (fold a 1) as [f|e]; [|now intros [= <- <-]].
    cbn [e_score aipw_ops]. now intros [= <- <-].
  Qed.

  (** what the arm reports, from its own state *)
  Definition reports (a : ARM) : Prop :=
    exists f0 f1, ar_split a = Some [f0; f1] /\
    (aipw_enough (ar_eta a) = false -> ar_ate a = Some XNaN /\ ar_var a = Some PInf) /\
    (aipw_enough (ar_eta a) = true -> forall sc, aipw_score xreal pr pp cf (ar_eta a) f1 = Ok sc ->
       ar_ate a = Some (nmean xreal sc) /\ ar_var a = Some (nmean xreal (map (fun s => nsq xreal (nsub xreal s (nmean xreal sc))) sc))).

  Lemma update_units (a : ARM) A B d delta q us a' q' r : holds a A B -> valid_delta xreal delta = true -> tr d = Ok (ud us) ->
    let A' := keep A ++ select (map negb (second q (List.length us))) us in
    let B' := keep B ++ select (second q (List.length us)) us in
    snd (aipw_fit xreal pr pp cf (ar_eta a) (ud A')) = None ->
    (aipw_enough (fst (aipw_fit xreal pr pp cf (ar_eta a) (ud A'))) = true ->
       exists sc, aipw_score xreal pr pp cf (fst (aipw_fit xreal pr pp cf (ar_eta a) (ud A'))) (ud B') = Ok sc) ->
    upd a d delta q = ((a', q'), r) ->
    ar_split a' = Some [ud A'; ud B'] /\ ar_eta a' = fst (aipw_fit xreal pr pp cf (ar_eta a) (ud A')) /\ q' = next q (List.length us) /\ reports a'.
  Proof.
    intros Ha Hd E A' B' Hfit Hsc Hu. destruct (absorb_units a A B d delta q us Ha Hd E) as (a1 & Ea & Es). fold A' B' in Es.
    set (h := fst (aipw_fit xreal pr pp cf (ar_eta a) (ud A'))) in *.
    assert (Ef : e_fit eo (ar_eta a) (ud A') (next q (List.length us)) = ((h, next q (List.length us)), None)).
    { cbn [e_fit aipw_ops]. unfold h. destruct (aipw_fit xreal pr pp cf (ar_eta a) (ud A')) as [h' e'] eqn:Efit. cbn [fst snd] in *. now rewrite Hfit. }
    destruct (ss_frame xreal vnone eo w tr opts a d delta q a1 _ None Ea a' q' r Hu) as (Hs & _). rewrite Es in Hs.
    destruct (ss_forward xreal vnone eo w tr opts a d delta q a1 _ (ud A') (ud B') Ea Es h _ Ef) as (H0 & H1).
    change (e_enough eo h) with (aipw_enough h) in H0, H1.
    assert (Heta : ar_eta a' = h).
    { destruct (absorb_ci xreal vnone w tr _ _ _ _ _ _ _ _ Ea) as (_ & He).
      revert Hu. unfold ss_update. rewrite Ea.
      assert (Hf0 : fold a1 0 = Ok (ud A')) by (unfold fold; rewrite Es; reflexivity). rewrite Hf0, He, Ef.
      destruct (e_enough eo h); cbn [negb]; [|intros [= <- <- <-]; reflexivity].
      destruct (score1 eo (set_eta a1 h)) as [a3 [s1|e]] eqn:E3; apply score1_eta in E3; cbn [set_eta ar_eta] in E3; [|now intros [= <- <- <-]].
      destruct (score1 eo (set_ate a3 _)) as [a5 [s2|e]] eqn:E5; apply score1_eta in E5; cbn [set_ate ar_eta] in E5; [|intros [= <- <- <-]; congruence].
      destruct (nisnan xreal _); [intros [= <- <- <-]; cbn; congruence|].
      destruct (fold (set_var a5 _) 1) as [f1|]; [|intros [= <- <- <-]; cbn; congruence].
      destruct (so_ci opts).
      - destruct (chi2_ci xreal w _ delta _) as [l u]. intros [= <- <- <-]; cbn; congruence.
      - destruct (score1 eo (set_var a5 _)) as [a7 [s3|e]] eqn:E7; apply score1_eta in E7; cbn [set_var ar_eta] in E7; [|intros [= <- <- <-]; congruence].
        destruct (clt_ci xreal w _ _ _ _ _) as [l u]. intros [= <- <- <-]; cbn; congruence.
      - destruct (_ || _ || _); [intros [= <- <- <-]; cbn; congruence|].
        destruct (e_width eo _ _ _ _) as [ew|]; [|intros [= <- <- <-]; cbn; congruence].
        destruct (nltb xreal _ (so_burn opts)); [intros [= <- <- <-]; cbn; congruence|].
        destruct ew as [?|]; [|intros [= <- <- <-]; cbn; congruence].
        destruct (fs_ci xreal _ _) as [l u]. intros [= <- <- <-]; cbn; congruence.
      - intros [= <- <- <-]; cbn; congruence. }
    split; [exact Hs|]. split; [exact Heta|].
    destruct (aipw_enough h) eqn:En.
    - destruct (Hsc eq_refl) as (sc & Esc).
      destruct (H1 eq_refl h sc h sc ltac:(cbn [e_score aipw_ops]; now rewrite Esc) ltac:(cbn [e_score aipw_ops]; now rewrite Esc) a' q' r Hu) as (-> & G1 & G2 & _).
      split; [reflexivity|]. exists (ud A'), (ud B'). split; [exact Hs|]. rewrite Heta, En. split; [discriminate|]. intros _ sc' E'.
      rewrite Esc in E'. injection E' as <-. now split.
    - rewrite (H0 eq_refl) in Hu. injection Hu as <- <- <-. split; [reflexivity|].
      exists (ud A'), (ud B'). split; [reflexivity|]. cbn [ar_eta ar_ate ar_var]. rewrite En. split; [now split|discriminate].
  Qed.

  (** ** any number of updates *)
  Fixpoint seconds_of (q : Q) (n t : nat) : list (list bool) :=
    match t with 0 => [] | S t' => second q n :: seconds_of (next q n) n t' end.
  (** the state after the fits, one per update, on the growing first fold *)
  Fixpoint fits (h : aipw X M P) (A : list U) (pieces : list (list U)) : aipw X M P :=
    match pieces with [] => h | p :: ps => fits (fst (aipw_fit xreal pr pp cf h (ud (keep A ++ p)))) (keep A ++ p) ps end.
  (** the units in a fold that gets the pieces one after the other *)
  Fixpoint grow (A : list U) (pieces : list (list U)) : list U :=
    match pieces with [] => A | p :: ps => grow (keep A ++ p) ps end.
  Lemma grow_all A ps : so_stable opts = true -> grow A ps = A ++ List.concat ps.
  Proof.
    intro H. revert A. induction ps as [|p ps IH]; intro A; cbn [grow List.concat]; [now rewrite app_nil_r|]. rewrite IH. unfold keep. now rewrite H, app_assoc.
  Qed.
  Lemma grow_last A ps : so_stable opts = false -> ps <> [] -> grow A ps = last ps [].
  Proof.
    intros H. revert A. induction ps as [|p ps IH]; intros A Hne; [congruence|]. cbn [grow]. unfold keep at 1. rewrite H. cbn [app].
    destruct ps as [|p' ps]; [reflexivity|]. rewrite IH by discriminate. reflexivity.
  Qed.
  Lemma good_keep (Pr : U -> Prop) A : Forall Pr A -> Forall Pr (keep A).
  Proof. intro H. unfold keep. destruct (so_stable opts); [exact H|constructor]. Qed.

  Lemma seconds_of_length q n t : List.length (seconds_of q n t) = t.
  Proof. revert q. induction t as [|t IH]; intro q; [reflexivity|]. cbn. now rewrite IH. Qed.
  Lemma seconds_of_sizes q n t : Forall (fun m => List.length m = n) (seconds_of q n t) /\ list_sum (map chosen (seconds_of q n t)) = t * (n / 2).
  Proof.
    revert q. induction t as [|t IH]; intro q; [split; [constructor|reflexivity]|]. destruct (IH (next q n)) as (F & S). split.
    - cbn [seconds_of]. constructor; [apply second_length|exact F].
    - cbn [seconds_of map list_sum fold_right]. rewrite second_chosen. change (fold_right Nat.add 0) with list_sum. rewrite S. lia.
  Qed.

  Context (good : U -> Prop) (ok : aipw X M P -> Prop).
  Hypothesis Hok : forall h us, ok h -> Forall good us ->
    snd (aipw_fit xreal pr pp cf h (ud us)) = None /\ ok (fst (aipw_fit xreal pr pp cf h (ud us))).
  Hypothesis Hscore : forall h us, ok h -> Forall good us -> aipw_enough h = true -> exists sc, aipw_score xreal pr pp cf h (ud us) = Ok sc.

  Lemma good_select m us : Forall good us -> Forall good (select m us).
  Proof.
    intro H. revert m. induction H as [|u us Hu H IH]; intros [|b m]; cbn [select]; try constructor. destruct b; [constructor; trivial|]; apply IH.
  Qed.

  Lemma feed_units n : forall ds uss, Forall2 (fun d us => tr d = Ok (ud us) /\ List.length us = n /\ Forall good us) ds uss ->
    forall deltas, List.length deltas = List.length ds -> Forall (fun e => valid_delta xreal e = true) deltas ->
    forall (a : ARM) A B q, holds a A B -> Forall good A -> Forall good B -> ok (ar_eta a) -> (reports a \/ ds <> []) ->
    let a' := fst (fst (feed upd a q (combine ds deltas))) in
    let ms := seconds_of q n (List.length uss) in
    holds a' (grow A (firsts ms uss)) (grow B (pieces ms uss)) /\ ar_eta a' = fits (ar_eta a) A (firsts ms uss) /\ ok (ar_eta a') /\ reports a'.
  Proof.
    induction 1 as [|d us ds uss (E & Hl & Hg) HF IH]; intros [|delta deltas] Hlen Hv a A B q Ha HA HB Hka Hr; try discriminate Hlen.
    - cbn [combine feed fst List.length seconds_of firsts pieces grow fits]. destruct Hr as [Hr|Hr]; [auto|congruence].
    - inversion Hv as [|? ? Hd Hv']; subst. cbn [combine feed]. destruct (upd a d delta q) as [[a1 q1] r1] eqn:Hu.
      assert (HA1 := good_select (map negb (second q (List.length us))) us Hg). assert (HB1 := good_select (second q (List.length us)) us Hg).
      assert (HA' : Forall good (keep A ++ select (map negb (second q (List.length us))) us)) by (apply Forall_app; split; [now apply good_keep|exact HA1]).
      assert (HB' : Forall good (keep B ++ select (second q (List.length us)) us)) by (apply Forall_app; split; [now apply good_keep|exact HB1]).
      destruct (Hok (ar_eta a) _ Hka HA') as (F1 & F2).
      destruct (update_units a A B d delta q us a1 q1 r1 Ha Hd E F1 (Hscore _ _ F2 HB') Hu) as (Hs & He & -> & Hr1).
      specialize (IH deltas ltac:(now injection Hlen) Hv' a1 _ _ (next q (List.length us)) (or_introl Hs) HA' HB' ltac:(now rewrite He) (or_introl Hr1)).
      cbn zeta in IH. destruct (feed upd a1 (next q (List.length us)) (combine ds deltas)) as [[a2 q2] rs]. cbn [fst List.length seconds_of firsts pieces grow fits] in *.
      rewrite He in IH. exact IH.
  Qed.
End Arm.
