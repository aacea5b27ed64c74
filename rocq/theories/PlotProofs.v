(** Lemmas for PlotProps.v and NbProps.v. *)
From Coq Require Import String List Arith ZArith Lia Bool.
From Verif Require Import PyBase PyLemmas Num NumLemmas BanditModel BanditSpec BanditProofs1 BanditProofs2
  BanditProofs3 BanditProofs4 PlotModel PlotSpec.
Import ListNotations.
Open Scope nat_scope.

Lemma grows_snoc d l x : grows d l -> (l <> [] -> last l 0 + d <= x) -> grows d (l ++ [x]).
Proof.
  intros Hg Hl t a b. rewrite !nth_error_snoc.
  destruct (Nat.eqb_spec (S t) (length l)) as [E|E].
  - intros Ha Hb. injection Hb as <-. destruct (Nat.eqb_spec t (length l)); [lia|].
    assert (Hne : l <> []) by (intros ->; simpl in E; lia). specialize (Hl Hne).
    destruct (exists_last Hne) as (l' & y & ->). rewrite last_last in Hl. rewrite app_length in E. simpl in E.
    rewrite nth_error_app2 in Ha by lia. replace (t - length l') with 0 in Ha by lia. injection Ha as <-. exact Hl.
  - intros Ha Hb. destruct (Nat.eqb_spec t (length l)) as [->|_].
    + assert (nth_error l (S (length l)) = None) by (apply nth_error_None; lia). congruence.
    + exact (Hg t a b Ha Hb).
Qed.

Section P.
  Context {A D G : Type} (ops : arm_ops A D G) (w : world D G) (cfg : config).
  Notation bstate := (bstate (A := A) (G := G)).
  Implicit Types s : bstate.

  (** successive elimination: the counts grow, and some arm is sampled in every round *)
  Definition se_more K s := se_inv ops cfg K s /\ grows (2 * c_units cfg) (b_cum s) /\ last (b_cum s) 0 = b_total s /\
    (0 < K -> exists j, j < K /\ nth_error (b_smp s) j = Some (repeat (c_units cfg) (length (b_cum s)))).

  Lemma se_more_next K all s arms' g2 rs cand' : se_more K s -> 1 < length (b_cand s) ->
    pull_list ops w cfg all (delta_of cfg (b_arms s)) (b_cand s) (b_arms s) (b_g s) = ((arms', g2), None) ->
    collect ops arms' = Ok rs -> eliminate (b_cand s) rs = Ok cand' ->
    se_more K (s_next cfg s arms' g2 rs cand').
  Proof.
    intros (Hi & Hg & Ht & Hj) Hc Hp Hco Hel. split; [eapply se_inv_next; eauto|].
    cbn [s_next b_cum record_round set_arms b_total b_smp].
    split; [apply grows_snoc; [exact Hg|]; intros _; nia|]. split; [apply last_last|].
    intros _. destruct (b_cand s) as [|i c] eqn:Ec; [simpl in Hc; lia|].
    assert (Hin : In i (b_cand s)) by (rewrite Ec; now left).
    assert (HiK : i < K) by (apply (se_b _ _ _ _ Hi); exact Hin).
    exists i. split; [exact HiK|]. rewrite nth_push.
    destruct (se_rec _ _ _ _ Hi i HiK) as (r & (_ & _ & Hr & _) & Hr'). specialize (Hr' Hin). subst r.
    rewrite Hr, Nat.sub_diag. cbn [repeat]. rewrite app_nil_r.
    rewrite (sh_arms _ _ _ (se_shp _ _ _ _ Hi)), smp_of_nth. destruct (Nat.ltb_spec i K); [|lia].
    cbn [existsb]. rewrite Nat.eqb_refl. cbn [orb]. rewrite app_length, Nat.add_1_r. f_equal. apply repeat_snoc.
  Qed.

  Lemma run_se_more fuel all arms g :
    match run SE ops w cfg fuel all arms g with
    | Returned _ s' => se_more (length arms) s' | Raised _ _ => True | OutOfFuel s' => se_more (length arms) s' end.
  Proof.
    apply run_inv; [|discriminate|].
    - intros _. split; [apply se_inv_init|]. split; [intros [|t] a b H; discriminate H|]. split; [reflexivity|].
      intros Hk. exists 0. split; [exact Hk|]. simpl. destruct arms; [simpl in Hk; lia|reflexivity].
    - intros s Hs. pose proof (se_step_inv ops w cfg all s) as H.
      destruct (se_step ops w cfg all s) as [s'|best s'|e s']; [| |exact I].
      + destruct H as (Hc & Ho & arms' & g2 & rs & c & Hp & Hco & Hel & -> & _). eapply se_more_next; eauto.
      + destruct H as [(-> & _)|[(-> & _)|(Hc & Ho & arms' & g2 & rs & Hp & Hco & Hel & -> & _)]]; [exact Hs|exact Hs|].
        eapply se_more_next; eauto.
  Qed.

  (** the recorded totals of any algorithm grow *)
  Lemma cum_grows alg fuel all arms g best s : run alg ops w cfg fuel all arms g = Returned best s ->
    grows (match alg with Uniform => length arms * c_units cfg | _ => 2 * c_units cfg end) (b_cum s).
  Proof.
    intros Hr t a b Ha Hb.
    assert (HS : S t < length (b_cum s)) by (apply nth_error_Some; congruence).
    destruct alg.
    - pose proof (run_uniform_acc ops w cfg fuel all arms g) as H. rewrite Hr in H. destruct H as ((_ & _ & Hc & _) & _).
      rewrite Hc in Ha, Hb by lia. injection Ha as <-. injection Hb as <-. lia.
    - pose proof (run_lucb_acc ops w cfg fuel all arms g) as H. rewrite Hr in H. destruct H as ((_ & _ & _ & Hc) & _).
      rewrite Hc in Ha, Hb by lia. injection Ha as <-. injection Hb as <-. lia.
    - pose proof (run_se_more fuel all arms g) as H. rewrite Hr in H. destruct H as (_ & Hg & _). exact (Hg t a b Ha Hb).
  Qed.
End P.

(** slices *)
Lemma nth_error_skipn {X} (k : nat) : forall (l : list X) t, nth_error (skipn k l) t = nth_error l (k + t).
Proof. induction k as [|k IH]; intros [|x l] t; simpl; try reflexivity; [destruct t; reflexivity|apply IH]. Qed.
Lemma slice_from_nat {X} (k : nat) (l : list X) : slice_from (Some (Z.of_nat k)) l = skipn k l.
Proof. unfold slice_from. destruct (Z.ltb_spec (Z.of_nat k) 0); [lia|]. now rewrite Nat2Z.id. Qed.

Lemma slice_from_eq {X} (k : option Z) (l : list X) : exists m, forall Y (l' : list Y), length l' = length l -> slice_from k l' = skipn m l'.
Proof.
  destruct k as [z|]; [|exists 0; reflexivity]. unfold slice_from. destruct (z <? 0)%Z.
  - exists (length l - Z.to_nat (- z)). intros Y l' ->. reflexivity.
  - exists (Z.to_nat z). reflexivity.
Qed.

Lemma by_arm_map {X Y} (f : X -> Y) l i : by_arm (map f l) i = match nth_error l i with Some x => Ok (f x) | None => Err KeyError end.
Proof. unfold by_arm. rewrite nth_error_map. destruct (nth_error l i); reflexivity. Qed.

Section Plot.
  Context {A D G : Type} (ops : arm_ops A D G).
  Notation bstate := (bstate (A := A) (G := G)).
  Implicit Types s : bstate.

  Lemma curve_of K s k i h sel : shape ops K s -> nth_error (b_hist s) i = Some h ->
    curve s k i sel (skipn k (b_cum s)) (skipn k (map sel h)).
  Proof.
    intros Hs Hh. pose proof (sh_hlen _ _ _ Hs) as Hf. rewrite Forall_forall in Hf.
    specialize (Hf h (nth_error_In _ _ Hh)). unfold curve. rewrite !skipn_length, map_length, Hf.
    split; [reflexivity|]. split; [reflexivity|]. intros t Ht. rewrite !nth_error_skipn. split; [reflexivity|].
    unfold recorded. rewrite Hh, nth_error_map. destruct (nth_error h (k + t)) as [r|] eqn:E; [exists r; auto|].
    apply nth_error_None in E. lia.
  Qed.

  (** one arm, whatever the slice: [k] is given by [m] *)
  Lemma plot_arm_ok K s best names k m i ax : shape ops K s -> length names = K -> i < K ->
    (forall Y (l' : list Y), length l' = length (b_cum s) -> slice_from k l' = skipn m l') ->
    exists ms, plot_arm names (bandit_data best s) k i ax = (ax ++ ms, Ok tt) /\ arm_marks s names m i ms.
  Proof.
    intros Hs Hn Hi Hk. pose proof (sh_hist _ _ _ Hs) as Hh. pose proof (sh_hlen _ _ _ Hs) as Hf. rewrite Forall_forall in Hf.
    destruct (nth_error (b_hist s) i) as [h|] eqn:Eh; [|apply nth_error_None in Eh; lia].
    destruct (nth_error names i) as [name|] eqn:En; [|apply nth_error_None in En; lia].
    assert (Hl : forall sel : reading -> F, length (map sel h) = length (b_cum s))
      by (intros sel; rewrite map_length; apply Hf; eapply nth_error_In; eauto).
    unfold plot_arm, bandit_data. cbn [bd_var bd_lcb bd_ucb bd_cum]. rewrite !by_arm_map, Eh. unfold by_arm at 1. rewrite En.
    cbn [bind]. rewrite !Hk by (try apply Hl; reflexivity).
    assert (HL : forall sel : reading -> F, length (skipn m (b_cum s)) =? length (skipn m (map sel h)) = true)
      by (intros sel; rewrite !skipn_length, Hl; apply Nat.eqb_refl).
    unfold ax_plot at 1. rewrite HL. cbn [and_then].
    unfold ax_plot at 1. rewrite HL. cbn [and_then].
    unfold ax_plot at 1. rewrite HL. cbn [and_then].
    unfold ax_fill_between. rewrite !HL. cbn [andb]. rewrite <- !app_assoc. cbn [app].
    eexists. split; [reflexivity|]. exists name, (skipn m (b_cum s)), (skipn m (map r_var h)), (skipn m (map r_lcb h)), (skipn m (map r_ucb h)).
    split; [exact En|]. do 3 (split; [eapply curve_of; eassumption|]). reflexivity.
  Qed.

  Lemma plot_arm_missing K s best names k i ax : shape ops K s -> K <= i ->
    plot_arm names (bandit_data best s) k i ax = (ax, Err KeyError).
  Proof.
    intros Hs Hi. pose proof (sh_hist _ _ _ Hs) as Hh. unfold plot_arm, bandit_data. cbn [bd_var].
    rewrite by_arm_map. rewrite (proj2 (nth_error_None _ _)) by lia. reflexivity.
  Qed.

  Lemma plot_results_ok K s best names k m : shape ops K s -> length names = K ->
    (forall Y (l' : list Y), length l' = length (b_cum s) -> slice_from k l' = skipn m l') ->
    forall arm_list rest ax, (forall i, In i arm_list -> i < K) ->
    exists groups, Forall2 (arm_marks s names m) arm_list groups /\
      plot_bandit_results names (bandit_data best s) k (arm_list ++ rest) ax =
      plot_bandit_results names (bandit_data best s) k rest (ax ++ concat groups).
  Proof.
    intros Hs Hn Hk. induction arm_list as [|i l IH]; intros rest ax Hl.
    - exists []. split; [constructor|]. cbn [concat]. now rewrite app_nil_r.
    - destruct (plot_arm_ok K s best names k m i ax Hs Hn (Hl i (or_introl eq_refl)) Hk) as (ms & Em & Hm).
      destruct (IH rest (ax ++ ms)) as (gs & Hg & Eg); [intros j Hj; apply Hl; now right|].
      exists (ms :: gs). split; [constructor; assumption|]. cbn [app plot_bandit_results concat]. rewrite Em. cbn [and_then].
      rewrite Eg. now rewrite app_assoc.
  Qed.

  Lemma legend_groups s names m arm_list groups : Forall2 (arm_marks s names m) arm_list groups ->
    legend (concat groups) = map (fun i => nth i names ""%string) arm_list.
  Proof.
    induction 1 as [|i ms l gs (name & xs & mid & lo & hi & En & _ & _ & _ & ->) Hg IH]; [reflexivity|].
    cbn [concat map]. unfold legend in *. rewrite flat_map_app. cbn [flat_map app]. rewrite IH. f_equal.
    symmetry. apply nth_error_nth. exact En.
  Qed.
End Plot.
