(** Vocabulary for the scores of the front-door arm on generated data. *)
From Coq Require Import List Arith ZArith Bool String Reals Permutation.
From Verif Require Import PyBase Num NumOps DataModel ScmModel ScmSpec TabModel BanditModel ArmModel ParamModel ParamSpec PaperModel PaperSpec LawSpec.
Import ListNotations.
Open Scope nat_scope.
Open Scope list_scope.

(** the scores FrontDoorLinearFiniteZ gives the units of a generated dataset after an arm's mask *)
Definition front_scores {G M} (pr : predictor X M) (cd : coding X) (cf : fd_conf X) (st : fdoor X M)
    (s : scm X G) (n : nat) (k : mask) (g : G) : res (list X) :=
  do d <- fst (generate s n g); do r <- select_fn k d; snd (fd_score xreal pr cd cf st r).

(** datasets of one unit: a binary treatment [x], real mediators [z] (the variable Z0), a real response [y] *)
Definition mediated {W} (T : law (list W)) (s : scm X (list W)) (x : list W -> bool) (z : list W -> list R) (y : list W -> R) : Prop :=
  forall g p, In (g, p) T ->
    drawn s 1 g "X" = Some (vec [bit xreal (x g)]) /\ drawn s 1 g "Y" = Some (vec [Fin (y g)]) /\
    drawn s 1 g "Z0" = Some (mkArr [List.length (z g)] [map Fin (z g)]).

(** the outcomes of a law as a finite population *)
Definition units_of {A} (T : law A) (x : A -> bool) (z : A -> list R) (y : A -> R) : list atom :=
  map (fun op => mkAtom (snd op) (z (fst op)) (x (fst op)) (y (fst op))) T.

(** a fitted parameter for [dim] covariate columns in which everything estimated equals the truth: E[Y | X, Z], P(X = 1),
    P(Z | X) and the values of Z *)
Definition right_front {M} (pr : predictor X M) (cd : coding X) (dim : nat) (st : fdoor X M) (pop : list atom) : Prop :=
  fd_fitted st = true
  /\ (exists mu, evaluates pr (fd_y st) (S dim) mu /\ forall z x, In z (z_values pop) -> mu (b2r x :: z) = e_y pop x z)
  /\ fd_prob st = Fin (p_x pop true)
  /\ (forall x z, exists r, entry_of (fd_tab st) x z = Fin r)
  /\ (forall b z, In z (z_values pop) -> entry_of (fd_tab st) (ki cd b) (kz cd (map Fin z)) = Fin (p_z_given pop b z))
  /\ (exists zs, map (zk cd) (t_zs (fd_tab st)) = map (map Fin) zs /\ Permutation zs (z_values pop)).

(** f_3 as the code's documentation has it: the sum over z' and x' of E[Y | x', z'] P(Z = z | x') P(x') *)
Definition f3_of (pop : list atom) (z : list R) : R :=
  TabSpec.rsum (map (fun z' => (e_y pop true z' * p_x pop true * p_z_given pop true z
                                + e_y pop false z' * p_x pop false * p_z_given pop false z)%R) (z_values pop)).
(** the difference of its means among treated and untreated units *)
Definition f3_shift (pop : list atom) : R :=
  TabSpec.rsum (map (fun z => ((p_z_given pop true z - p_z_given pop false z) * f3_of pop z)%R) (z_values pop)).
