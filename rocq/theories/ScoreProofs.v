(** Double robustness for laws with finitely many outcomes. *)
From Coq Require Import List Arith ZArith Bool String Reals Lra Lia.
From Verif Require Import PyBase Num NumOps DataModel ScmModel ScmSpec TabModel BanditModel ArmModel ParamModel ParamSpec ParamProofs ParamProofs2 PaperModel PaperSpec
  LawSpec LawProofs ScoreSpec.
Import ListNotations.
Open Scope nat_scope.
Open Scope list_scope.

Lemma prob_nonneg {A} (d : law A) b : (forall a p, In (a, p) d -> (0 <= p)%R) -> (0 <= prob d b)%R.
Proof. intro H. apply mean_nonneg; [exact H|]. intro a. destruct (b a); lra. Qed.
Lemma prob_own {A} (d : law A) b a p : (forall a p, In (a, p) d -> (0 <= p)%R) -> In (a, p) d -> (0 < p)%R -> b a = true -> (0 < prob d b)%R.
Proof.
  intros Hp Hin H Hb. apply Rlt_le_trans with (p * (if b a then 1 else 0))%R; [rewrite Hb; lra|].
  apply (mean_ge_term d (fun a => if b a then 1 else 0)%R a p Hp); [|exact Hin]. intro c. destruct (b c); lra.
Qed.

Section DR.
  Context {A : Type} (T : law A) (x : A -> bool) (z : A -> list R) (y : A -> R).
  Hypothesis Hp : forall a p, In (a, p) T -> (0 <= p)%R.
  Hypothesis Hpos : positive T x z.

  Lemma like_refl o : like z o o = true.
  Proof. unfold like. destruct (z_eq (z o) (z o)); congruence. Qed.
  Lemma like_eq o o' : like z o o' = true <-> z o' = z o.
  Proof. unfold like. destruct (z_eq (z o') (z o)); split; congruence. Qed.
  Lemma like_cong o o' : like z o o' = true -> forall c, like z o c = like z o' c.
  Proof. intros H c. apply like_eq in H. unfold like. now rewrite H. Qed.

  Lemma prob_split o : prob T (like z o) = (prob T (arm_of x z true o) + prob T (arm_of x z false o))%R.
  Proof.
    unfold prob. rewrite <- mean_plus. apply mean_ext. intro a. unfold arm_of. destruct (x a), (like z o a); cbn; lra.
  Qed.

  (** the mean score over a cell *)
  Lemma cell_score (m : bool -> list R -> R) (e : list R -> R) o p : In (o, p) T -> (0 < p)%R -> (0 < e (z o) < 1)%R ->
    mean_given T (like z o) (fun a => dr_score (fun b => m b (z a)) (e (z a)) (x a) (y a)) =
    (m true (z o) - m false (z o)
     + prob T (arm_of x z true o) / prob T (like z o) * (mean_given T (arm_of x z true o) y - m true (z o)) / e (z o)
     - prob T (arm_of x z false o) / prob T (like z o) * (mean_given T (arm_of x z false o) y - m false (z o)) / (1 - e (z o)))%R.
  Proof.
    intros Hin Hpp He. pose proof (Hpos o p true Hin Hpp) as P1. pose proof (Hpos o p false Hin Hpp) as P0.
    pose proof (prob_split o) as Ps. unfold mean_given.
    set (M b := mean T (fun a => if arm_of x z b o a then y a else 0%R)).
    assert (E : mean T (fun a => if like z o a then dr_score (fun b => m b (z a)) (e (z a)) (x a) (y a) else 0%R) =
      ((m true (z o) - m false (z o)) * prob T (like z o) + (M true - m true (z o) * prob T (arm_of x z true o)) / e (z o)
       - (M false - m false (z o) * prob T (arm_of x z false o)) / (1 - e (z o)))%R).
    { unfold prob, M, Rdiv, Rminus.
      rewrite <- !mean_scal. rewrite !Ropp_mult_distr_l_reverse || idtac.
      transitivity (mean T (fun a => ((m true (z o) - m false (z o)) * (if like z o a then 1 else 0)
        + ((if arm_of x z true o a then y a else 0) - m true (z o) * (if arm_of x z true o a then 1 else 0)) * / e (z o)
        + - (((if arm_of x z false o a then y a else 0) - m false (z o) * (if arm_of x z false o a then 1 else 0)) * / (1 - e (z o))))%R)).
      - apply mean_ext. intro a. unfold arm_of. destruct (like z o a) eqn:El; rewrite ?andb_true_r, ?andb_false_r.
        + apply like_eq in El. rewrite El. unfold dr_score. destruct (x a); cbn [Bool.eqb]; unfold Rdiv, Rminus; ring.
        + ring.
      - rewrite !mean_plus. f_equal; [f_equal|].
        + rewrite mean_scal_r. f_equal. unfold Rminus. rewrite mean_plus. f_equal.
          rewrite (mean_ext T _ (fun a => (-1 * (m true (z o) * (if arm_of x z true o a then 1 else 0)))%R)) by (intro; ring).
          rewrite mean_scal. ring.
        + rewrite (mean_ext T _ (fun a => (((if arm_of x z false o a then y a else 0) + (- m false (z o)) * (if arm_of x z false o a then 1 else 0)) * - / (1 - e (z o)))%R)) by (intro; ring).
          rewrite mean_scal_r, mean_plus, !mean_scal. unfold Rminus. ring. }
    rewrite E. fold (M true) (M false). rewrite Ps. field. repeat split; lra.
  Qed.

  Lemma dr_law (m : bool -> list R -> R) (e : list R -> R) :
    (forall o p, In (o, p) T -> (0 < p)%R -> (0 < e (z o) < 1)%R) ->
    (forall o p b, In (o, p) T -> (0 < p)%R -> m b (z o) = mean_given T (arm_of x z b o) y) \/
    (forall o p, In (o, p) T -> (0 < p)%R -> e (z o) = (prob T (arm_of x z true o) / prob T (like z o))%R) ->
    mean T (fun a => dr_score (fun b => m b (z a)) (e (z a)) (x a) (y a)) =
    (adjusted T x (like z) y - adjusted T (fun a => negb (x a)) (like z) y)%R.
  Proof.
    intros He Hor.
    assert (Ha : forall b, adjusted T (fun a => Bool.eqb (x a) b) (like z) y = mean T (fun o => mean_given T (arm_of x z b o) y)) by reflexivity.
    assert (Et : adjusted T x (like z) y = mean T (fun o => mean_given T (arm_of x z true o) y)).
    { rewrite <- Ha. unfold adjusted. apply mean_ext. intro o. unfold mean_given, prob.
      apply (f_equal2 Rdiv); apply mean_ext; intro a; destruct (x a); reflexivity. }
    assert (Ef : adjusted T (fun a => negb (x a)) (like z) y = mean T (fun o => mean_given T (arm_of x z false o) y)).
    { rewrite <- Ha. unfold adjusted. apply mean_ext. intro o. unfold mean_given, prob.
      apply (f_equal2 Rdiv); apply mean_ext; intro a; destruct (x a); reflexivity. }
    rewrite Et, Ef.
    rewrite <- (tower T (like z) _ Hp like_refl like_cong).
    transitivity (mean T (fun o => (mean_given T (arm_of x z true o) y + -1 * mean_given T (arm_of x z false o) y)%R)).
    2: { rewrite mean_plus, mean_scal. lra. }
    apply mean_ext_pos; [exact Hp|]. intros o p Hin Hpp.
    rewrite (cell_score m e o p Hin Hpp (He o p Hin Hpp)).
    pose proof (Hpos o p true Hin Hpp) as P1. pose proof (Hpos o p false Hin Hpp) as P0. pose proof (prob_split o) as Ps.
    pose proof (He o p Hin Hpp) as H1.
    destruct Hor as [H|H].
    - rewrite <- !(H o p _ Hin Hpp). field. repeat split; lra.
    - pose proof (H o p Hin Hpp) as H2. 
      assert (H3 : (1 - e (z o) = prob T (arm_of x z false o) / prob T (like z o))%R) by (rewrite H2, Ps; field; lra).
      rewrite H3, H2. rewrite Ps. field. repeat split; lra.
  Qed.
End DR.
