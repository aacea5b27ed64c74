(** The mean score of an arm without the condition that its columns block every path. *)
From Coq Require Import List Arith ZArith Bool String Reals Permutation Lra Lia.
From Verif Require Import PyBase Num NumOps DataModel ScmModel ScmProofs ScmProps TabModel TabSpec BanditModel ArmModel ParamModel ParamProofs ParamProofs2
  PaperModel PaperSpec PaperProofs PaperProofs2 PaperProofs3 ScmSpec LawSpec LawProofs LawProofs2 LawProofs3 LawProofs4
  ParamSpec ScoreSpec ScoreProofs ScoreProofs2 ScoreProofs3 ScoreProofs4 ScoreProofs7 SplitSpec.
Import ListNotations.
Open Scope nat_scope.
Open Scope list_scope.

Lemma contrast_adjusted {A} (T : law A) (x : A -> bool) (z : A -> list R) (y : A -> R) :
  contrast T x z y = (adjusted T x (like z) y - adjusted T (fun a => negb (x a)) (like z) y)%R.
Proof.
  unfold contrast, adjusted. apply f_equal2; apply mean_ext; intro o; unfold mean_given, prob, arm_of;
    apply (f_equal2 Rdiv); apply mean_ext; intro a; destruct (x a); reflexivity.
Qed.

Lemma contrast_core : forall (W M P : Type) (seeds : law W) big zd vd zc vc z0c m (cpds : sdict (cpd X (list W))) limit units latex alg
    g0 e g1 k K j arm cf (pr : predictor X M) (pp : predictor X P) st mu pe x z y,
  is_law seeds -> 2 * m + 3 <= k ->
  generate_example xreal big zd vd zc vc z0c m cpds limit units latex alg g0 = (Ok e, g1) ->
  (forall v f, paper_var m v -> entry cpds v f -> draws seeds 1 f (K v)) ->
  dims_fit zd vd m -> regular (tapes seeds k) (e_scm e) 1 m zd vd ->
  j < 2 ^ m -> nth_error (e_arms e) (S j) = Some arm -> pa_eta arm = Aipw cf ->
  one_unit (tapes seeds k) (e_scm e) (pa_mask arm) x z y -> positive (tapes seeds k) x z ->
  fitted pr pp cf st mu pe ->
  right_response (tapes seeds k) x z y mu \/ right_propensity (tapes seeds k) x z (1/4) pe ->
  let score := (fun g => score_of (1/4) mu pe (x g) (z g) (y g)) in
  (forall g p, In (g, p) (tapes seeds k) -> arm_scores pr pp cf st (e_scm e) 1 (pa_mask arm) g = Ok [Fin (score g)]) /\
    mean (tapes seeds k) score = contrast (tapes seeds k) x z y.
Proof.
  intros W M P seeds big zd vd zc vc z0c m cpds limit units latex alg g0 e g1 k K j arm cf pr pp st mu pe x z y
    Hlaw Hk He Hd Hfit Hreg Hj Harm Hcf Hone Hpos (Hen & Hmu & Hpe) Hor.
  destruct (backdoor_conf _ _ _ _ _ _ _ _ _ _ _ _ _ _ _ _ _ _ _ He Hj Harm Hcf) as (Es & Em & Hlo & Hdim).
  destruct quarter as (Q1 & Q2).
  cbv zeta. split.
  - intros g p Hin. destruct (Hone g p Hin) as (HX & HY & HZ). rewrite Em in HZ |- *.
    destruct (arm_data seeds 1 m k Hk cpds (e_scm e) K Es Hd zd vd Hreg j Hfit g p Hin) as (d & r & c & xx & _ & _ & Ec & _ & _ & _ & _ & _ & Tc & _).
    rewrite HZ in Ec. injection Ec as <-. cbn [atail] in Tc. injection Tc as Tc.
    apply (units_scores seeds 1 m k Hk cpds (e_scm e) K Es Hd zd vd Hreg j Hfit pr pp cf (1/4) st mu pe Hlo Q1 Q2 Hdim Hen Hmu Hpe [g] x z y g p Hin); trivial.
    + intros u [<-|[]]. exact Tc.
    + rewrite HZ, Tc. reflexivity.
  - rewrite contrast_adjusted. unfold score_of. cbv iota.
    apply (dr_law (tapes seeds k) x z y (proj1 (tapes_law seeds k Hlaw)) Hpos (fun b zz => mu (b2r b :: zz)) (fun zz => rclip (1/4) (pe zz))).
    + intros o p _ _. pose proof (rclip_range (1/4) (pe (z o)) Q2). lra.
    + destruct Hor as [H|H]; [left; exact H|right]. intros o p Hin Hp. destruct (H o p Hin Hp) as (E & Hr). rewrite <- E. now apply rclip_id.
Qed.
