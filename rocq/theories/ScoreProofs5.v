(** The scores of an arm that leaves a path open, for the CPDs of LawProofs5 over the reals. *)
From Coq Require Import List Arith ZArith Bool String Reals Lra Lia.
From Verif Require Import PyBase Num NumOps DataModel ScmModel ScmProofs ScmProps TabModel TabSpec BanditModel ArmModel ParamModel ParamSpec ParamProofs ParamProofs2
  PaperModel PaperSpec PaperProofs PaperProofs2 PaperProofs3 ScmSpec LawSpec LawProofs LawProofs2 LawProofs3 LawProofs4 LawProofs5 ParamSpec ScoreSpec ScoreProofs ScoreProofs2.
Import ListNotations.
Open Scope nat_scope.
Open Scope list_scope.

(** ** reading a law of one unit through its arrays *)
Section Read.
  Context {W : Type} (T : law (list W)) (s : scm X (list W)) (k : mask) (x : list W -> bool) (z : list W -> list R) (y : list W -> R).
  Hypothesis Hone : one_unit T s k x z y.

  Lemma same_treated b g p : In (g, p) T -> same xarr_eqb (Some (vec [bit xreal b])) (drawn s 1 g "X") = Bool.eqb (x g) b.
  Proof.
    intro Hin. destruct (Hone g p Hin) as (-> & _). apply eq_true_iff_eq. rewrite (same_iff xarr_eqb xarr_eqb_decides), Bool.eqb_true_iff.
    split; [|now intros ->]. intro E. symmetry. apply bit_inj. unfold vec in E. cbn [map] in E. congruence.
  Qed.
  Lemma same_seen g p g' p' : In (g, p) T -> In (g', p') T -> same xarr_eqb (seen s 1 k g) (seen s 1 k g') = like z g g'.
  Proof.
    intros Hin Hin'. destruct (Hone g p Hin) as (_ & _ & ->). destruct (Hone g' p' Hin') as (_ & _ & ->).
    apply eq_true_iff_eq. rewrite (same_iff xarr_eqb xarr_eqb_decides), (like_eq z). split; [|now intros ->].
    intro E. injection E as _ E. symmetry. now apply map_Fin_inj.
  Qed.
  Lemma adjusted_read b Y : adjusted T (fun g => same xarr_eqb (Some (vec [bit xreal b])) (drawn s 1 g "X"))
      (fun g g' => same xarr_eqb (seen s 1 k g) (seen s 1 k g')) Y = adjusted T (fun g => Bool.eqb (x g) b) (like z) Y.
  Proof.
    unfold adjusted. apply mean_ext_in. intros g p Hin. unfold mean_given, prob.
    apply (f_equal2 Rdiv); apply mean_ext_in; intros g' p' Hin'; now rewrite (same_treated b g' p' Hin'), (same_seen g p g' p' Hin Hin').
  Qed.
  Lemma overlap_read b : overlap T (fun g => same xarr_eqb (Some (vec [bit xreal b])) (drawn s 1 g "X"))
      (fun g g' => same xarr_eqb (seen s 1 k g) (seen s 1 k g')) <->
    (forall o p, In (o, p) T -> (0 < p)%R -> (0 < prob T (arm_of x z b o))%R).
  Proof.
    unfold overlap. assert (E : forall o p, In (o, p) T -> prob T (fun o' => same xarr_eqb (Some (vec [bit xreal b])) (drawn s 1 o' "X") &&
      same xarr_eqb (seen s 1 k o) (seen s 1 k o')) = prob T (arm_of x z b o)).
    { intros o p Hin. apply mean_ext_in. intros o' p' Hin'. unfold arm_of. now rewrite (same_treated b o' p' Hin'), (same_seen o p o' p' Hin Hin'). }
    split; intros H o p Hin Hp; specialize (H o p Hin Hp); [rewrite (E o p Hin) in H|rewrite (E o p Hin)]; exact H.
  Qed.
  Lemma response_read g p : In (g, p) T -> entry_real (drawn s 1 g "Y") = y g.
  Proof. intro Hin. destruct (Hone g p Hin) as (_ & -> & _). reflexivity. Qed.
  Lemma adjusted_bool b : adjusted T (fun g => Bool.eqb (x g) b) (like z) y =
    adjusted T (fun g => if b then x g else negb (x g)) (like z) y.
  Proof.
    unfold adjusted. apply mean_ext. intro g. unfold mean_given, prob.
    apply (f_equal2 Rdiv); apply mean_ext; intro a; destruct (x a), b; reflexivity.
  Qed.
End Read.

(** ** the open path *)
Section OpenReal.
  Context (zd vd : list nat) (m i0 cv cz k : nat) (s : scm X (list nat)).
  Notation c0 := (Fin 0).
  Notation c1 := (Fin 1).
  Notation cp := (open_cpds c0 c1 xarr_eqb zd vd m i0 cv cz).
  Notation val := (val c0 c1 zd vd m i0 cv cz).
  Hypothesis Hi : 1 <= i0 <= m.
  Hypothesis Hcv : cv < nth i0 vd 0.
  Hypothesis Hcz : cz < nth i0 zd 0.
  Hypothesis Hk : 2 * m + 3 <= k.
  Hypothesis Hs : paper_scm m cp = Ok s.
  Context (j : nat).
  Hypothesis Hfit : dims_fit zd vd m.
  Notation T := (tapes four k).

  Definition open_x (g : list nat) : bool := match drawn s 1 g "X" with Some a => xarr_eqb a (val "X" true) | None => false end.
  Definition open_y (g : list nat) : R := entry_real (drawn s 1 g "Y").
  Definition open_z (g : list nat) : list R :=
    match seen s 1 (arm_mask zd vd m j) g with Some c => map real_of (nth 0 (arows c) []) | None => [] end.

  Lemma val_X b : val "X" b = vec [bit xreal b].
  Proof. rewrite bit_x. unfold LawProofs5.val. rewrite width_X. destruct b; reflexivity. Qed.
  Lemma val_Y b : val "Y" b = vec [Fin (b2r b)].
  Proof. unfold LawProofs5.val. rewrite width_Y. destruct b; reflexivity. Qed.
  Lemma c01 : c0 <> c1. Proof. intro E. injection E as E. lra. Qed.

  Lemma open_one : one_unit T s (arm_mask zd vd m j) open_x open_z open_y.
  Proof.
    intros g p Hin. unfold open_x, open_y, open_z.
    pose proof (open_drawn c0 c1 xarr_eqb zd vd m i0 cv cz k s Hk Hs g p) as HD.
    pose proof (open_draws c0 c1 xarr_eqb zd vd m i0 cv cz 1) as Hdr.
    destruct (E_some four 1 m k Hk cp s _ Hs Hdr g p "X" Hin ltac:(constructor)) as (a & Ea).
    destruct (E_some four 1 m k Hk cp s _ Hs Hdr g p "Y" Hin ltac:(constructor)) as (y & Ey).
    rewrite Ea, Ey. destruct (HD "X"%string a Hin Ea) as (b & ->). destruct (HD "Y"%string y Hin Ey) as (b' & ->).
    rewrite (eqb_val c0 c1 xarr_eqb zd vd m i0 cv cz c01 xarr_eqb_decides "X" b true (spot_X0 zd vd m i0 cv cz Hi Hcv Hcz)).
    replace (Bool.eqb b true) with b by now destruct b. split; [now rewrite val_X|]. rewrite val_Y. split; [reflexivity|].
    pose proof (open_regular c0 c1 xarr_eqb zd vd m i0 cv cz Hi Hcv Hcz k s Hk Hs) as Hreg.
    destruct (arm_data four 1 m k Hk cp s _ Hs Hdr zd vd Hreg j Hfit g p Hin) as (d & r & c & x & _ & _ & -> & _ & _ & _ & _ & _ & Tc & Lc & Rc).
    destruct (Rc 0 ltac:(lia)) as (R & F). destruct c as [tc rc]. cbn [atail arows] in *.
    destruct rc as [|q [|? ?]]; try discriminate Lc. cbn [nth]. unfold row in R. cbn [arows nth] in R.
    assert (HF : forall e, In e q -> Fin (real_of e) = e).
    { intros e He. rewrite R in He. unfold take_at in He. apply in_flat_map in He as (i & _ & He).
      assert (Hx : In e (row x 0)).
      { unfold row in *. destruct (nth_error (nth 0 (arows x) []) i) as [e'|] eqn:En; [|destruct He].
        destruct He as [<-|[]]. now apply nth_error_In in En. }
      apply In_nth_error in Hx as (i' & Hx).
      destruct (nth_error (labels zd vd m) i') as [(v, cc)|] eqn:El.
      - destruct (Forall2_nth_error _ _ _ F i' _ El) as (e' & E1 & E2). rewrite Hx in E1. injection E1 as <-. cbn [fst snd] in E2.
        unfold cell_at in E2. destruct (drawn s 1 g v) as [av|] eqn:Ev; [|discriminate].
        destruct (HD v av Hin Ev) as (bv & ->). unfold row, LawProofs5.val in E2. cbn [arows nth] in E2.
        apply nth_error_In, in_map_iff in E2 as (? & <- & _). destruct (bv && _); reflexivity.
      - apply nth_error_None in El. apply Forall2_length_eq in F. rewrite F in El. apply nth_error_None in El. congruence. }
    assert (Eq : map Fin (map real_of q) = q).
    { rewrite map_map. clear - HF. induction q as [|e q IH]; [reflexivity|]. cbn [map]. rewrite (HF e) by now left. f_equal. apply IH. intros. apply HF. now right. }
    rewrite Eq, map_length. do 2 f_equal. rewrite Tc. f_equal.
    subst q.
    rewrite <- (arm_columns_length zd vd m j).
    pose proof (Forall2_length_eq _ _ _ F) as HL. rewrite (labels_length m k Hk zd vd Hfit) in HL.
    assert (Hb : Forall (fun i => i < List.length (row x 0)) (arm_columns zd vd m j)).
    { apply Forall_forall. intros i Hi'. rewrite <- HL. exact (arm_columns_bound zd vd m j i Hi'). }
    clear - Hb. induction Hb as [|i l Hi' Hb IH]; [reflexivity|]. cbn [List.length]. rewrite IH. unfold take_at. cbn [flat_map].
    rewrite app_length. unfold row in Hi'. destruct (nth_error (nth 0 (arows x) []) i) eqn:E; [reflexivity|]. apply nth_error_None in E. lia.
  Qed.

  Hypothesis HnV : ~ gets zd vd m (arm_columns zd vd m j) (Vn i0) cv.
  Hypothesis HnZ : ~ gets zd vd m (arm_columns zd vd m j) (Zn i0) cz.

  Lemma open_positive : positive T open_x open_z.
  Proof.
    intros o p b Hin Hp. refine (proj1 (overlap_read T s _ open_x open_z open_y open_one b) _ o p Hin Hp).
    rewrite <- val_X. exact (open_overlap c0 c1 xarr_eqb zd vd m i0 cv cz c01 xarr_eqb_decides Hi Hcv Hcz k s Hk Hs j Hfit HnV HnZ b).
  Qed.
  Lemma open_resp g p : In (g, p) T -> resp c0 c1 xarr_eqb zd vd m i0 cv cz (drawn s 1 g "Y") = open_y g.
  Proof.
    intro Hin. unfold open_y.
    destruct (E_some four 1 m k Hk cp s _ Hs (open_draws c0 c1 xarr_eqb zd vd m i0 cv cz 1) g p "Y" Hin ltac:(constructor)) as (y & Ey).
    rewrite Ey. destruct (open_drawn c0 c1 xarr_eqb zd vd m i0 cv cz k s Hk Hs g p "Y" y Hin Ey) as (b & ->).
    cbn [resp]. rewrite (bit_val c0 c1 xarr_eqb zd vd m i0 cv cz c01 xarr_eqb_decides "Y" b (spot_Y0 zd vd m i0 cv cz Hi Hcv Hcz)), val_Y. destruct b; reflexivity.
  Qed.
  Lemma open_effects b : adjusted T (fun g => Bool.eqb (open_x g) b) (like open_z) open_y = (if b then 3/4 else 1/4)%R.
  Proof.
    rewrite <- (open_adjusted c0 c1 xarr_eqb zd vd m i0 cv cz c01 xarr_eqb_decides Hi Hcv Hcz k s Hk Hs j Hfit HnV HnZ b).
    rewrite val_X. rewrite (adjusted_read T s _ open_x open_z open_y open_one b).
    unfold adjusted. apply mean_ext. intro g. unfold mean_given, prob.
    apply (f_equal2 Rdiv); apply mean_ext_in; intros g' p' Hin'; [|reflexivity]. now rewrite (open_resp g' p' Hin').
  Qed.
  Lemma open_half : right_propensity T open_x open_z (1/4) (fun _ => (1/2)%R).
  Proof.
    intros o p Hin Hp. split; [|lra].
    pose proof (given_open c0 c1 xarr_eqb zd vd m i0 cv cz c01 xarr_eqb_decides Hi Hcv Hcz k s Hk Hs j Hfit HnV HnZ) as HG.
    assert (E : forall b, prob T (arm_of open_x open_z b o) = (1/2)%R).
    { intro b. rewrite <- (proj1 (HG b o p Hin)). rewrite val_X. apply mean_ext_in. intros o' p' Hin'. unfold arm_of.
      now rewrite (same_treated T s _ open_x open_z open_y open_one b o' p' Hin'), (same_seen T s _ open_x open_z open_y open_one o p o' p' Hin Hin'). }
    rewrite (prob_split T open_x open_z o), !E. lra.
  Qed.
  (** the mean response does not depend on the treatment *)
  Lemma open_do_real a f s' : (forall args g, f 1 args g = (Ok a, g)) -> replaces s "X" f s' ->
    mean T (fun g => entry_real (drawn s' 1 g "Y")) = (1/2)%R.
  Proof.
    intros Hf Hr.
    rewrite (mean_do four 1 m k four_law Hk cp s _ Hs (open_draws c0 c1 xarr_eqb zd vd m i0 cv cz 1) entry_real a f s' Hf Hr).
    rewrite <- (open_do c0 c1 xarr_eqb zd vd m i0 cv cz c01 xarr_eqb_decides Hi Hcv Hcz k s Hk Hs a f s' Hf Hr).
    rewrite (mean_do four 1 m k four_law Hk cp s _ Hs (open_draws c0 c1 xarr_eqb zd vd m i0 cv cz 1) (resp c0 c1 xarr_eqb zd vd m i0 cv cz) a f s' Hf Hr).
    apply pmean_ext. intros vs zs _ _. unfold mu. apply mean_ext. intro z0.
    unfold K_of. change (phi_of c0 c1 xarr_eqb zd vd m i0 cv cz "Y") with
      (Some (fun (args : list (arr X)) (_ : nat) => val "Y" (LawProofs5.bit c0 c1 xarr_eqb zd vd m i0 cv cz (Zn i0) (nth i0 args (val "X" false))))).
    cbn [map four mean fst snd]. set (b := LawProofs5.bit _ _ _ _ _ _ _ _ _ _ _).
    cbn [resp]. rewrite (bit_val c0 c1 xarr_eqb zd vd m i0 cv cz c01 xarr_eqb_decides "Y" b (spot_Y0 zd vd m i0 cv cz Hi Hcv Hcz)), val_Y.
    destruct b; reflexivity.
  Qed.
End OpenReal.
