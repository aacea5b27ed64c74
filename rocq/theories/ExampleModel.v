(** Model of /repo/causal_effect_bandits/example_scm.py. *)
From Coq Require Import List Arith ZArith Bool String.
From Verif Require Import PyBase NumOps DataModel ScmModel ParamModel.
Import ListNotations.
Open Scope nat_scope.
Open Scope string_scope.

(** numpy's global generator as used there: np.random.uniform(lo, hi) (example_scm.py:40-42,
    101-105), np.random.binomial(1, ps) for a 1-d array of probabilities (lines 57-58, 134, 137,
    140; ValueError unless all lie in [0, 1]), np.random.normal(size=k) (lines 53, 130). *)
Record ex_world (N G : Type) : Type := mkExW {
  ew_uniform : N -> N -> G -> N * G;
  ew_binom : list N -> G -> res (list N) * G;
  ew_normal : nat -> G -> list N * G }.
Arguments mkExW {N G} ew_uniform ew_binom ew_normal.
Arguments ew_uniform {N G} e.
Arguments ew_binom {N G} e.
Arguments ew_normal {N G} e.

Section Examples.
  Context {N G : Type} (o : numops N) (w : ex_world N G).

  (** np.random.binomial(1, ps) (example_scm.py:58) as a sample *)
  Definition binomial (ps : list N) (g : G) : res (arr N) * G :=
    match ew_binom w ps g with
    | (Ok l, g1) => (Ok (vec l), g1)
    | (Err e, g1) => (Err e, g1)
    end.

  (** np.random.binomial(1, p, size=n) (example_scm.py:57, 140): n draws with the same
      probability *)
  Definition binomial_n (n : nat) (p : N) (g : G) : res (arr N) * G := binomial (repeat p n) g.

  (** np.random.binomial(1, ps, size=n) (example_scm.py:134, 137): ps must broadcast to n *)
  Definition binomial_sized (n : nat) (ps : list N) (g : G) : res (arr N) * G :=
    if Nat.eqb (List.length ps) n then binomial ps g
    else match ps with [p] => binomial (repeat p n) g | _ => (Err ValueError, g) end.

  (** parents[i] (example_scm.py:53-54, 58, 130-131, 134, 137). Simplification: only 1-d
      samples, which is what these SCMs produce. *)
  Definition parent (l : list (arr N)) (i : nat) : res (list N) :=
    match nth_error l i with Some a => vec_of (Some a) | None => Err IndexError end.

  (** y_cpd: np.random.normal(size=len(parents[0])) + a * parents[i] + b * parents[j]
      (example_scm.py:52-54 with tau, 1, beta, 0; 129-131 with gamma, 0, alpha_2, 1) *)
  Definition y_cpd (a : N) (i : nat) (b : N) (j : nat) : cpd N G := fun _ ps g =>
    match parent ps 0 with
    | Err e => (Err e, g)
    | Ok p0 =>
        let '(eps, g1) := ew_normal w (List.length p0) g in
        (do u <- parent ps i;
         do s <- bzip (nadd o) eps (map (nmul o a) u);
         do v <- parent ps j;
         do y <- bzip (nadd o) s (map (nmul o b) v);
         Ok (vec y), g1)
    end.

  (** the numbers 0.2, 0.8, 0.3 (example_scm.py:40-42, 101, 104-105) and .5 *)
  Definition c2 : N := nlit o 2 10.
  Definition c8 : N := nlit o 8 10.
  Definition c3 : N := nlit o 3 10.
  Definition neg (x : N) : N := nsub o (nint o 0) x.
  Definition half : N := nlit o 1 2.

  (** ** back_door_scm (example_scm.py:27-84) *)
  (** the CPDs (example_scm.py:52-60) *)
  Definition bd_cpds (p beta alpha tau : N) : sdict (cpd N G) :=
    [("Z", fun n _ g => binomial_n n p g);
     ("X", fun _ ps g =>
        match parent ps 0 with
        | Err e => (Err e, g)
        | Ok z => binomial (map (fun v => nadd o half (nmul o alpha v)) z) g
        end);
     ("Y", y_cpd tau 1 beta 0)].

  Definition back_door_scm (g : G) : res (scm N G * sdict N) * G :=
    let '(p, g1) := ew_uniform w c2 c8 g in
    let '(u, g2) := ew_uniform w (neg c3) c3 g1 in
    let beta := nmul o (nint o 10) u in
    let '(alpha, g3) := ew_uniform w (neg c3) c3 g2 in
    let tau := nint o 10 in
    let mu_z := p in
    let var_z := nmul o p (nsub o (nint o 1) p) in
    let mu_x := nadd o half (nmul o alpha p) in
    let var_x := nmul o mu_x (nsub o (nint o 1) mu_x) in
    let mu_y := nadd o (nmul o tau mu_x) (nmul o beta mu_z) in
    let var_y := nadd o (nadd o (nint o 1) (nmul o (nsq o tau) var_x)) (nmul o (nsq o beta) var_z) in
    (do s <- scm_init "back-door example" ["Z"; "X"; "Y"]
               [("Z", []); ("X", ["Z"]); ("Y", ["Z"; "X"])] (bd_cpds p beta alpha tau) ["Z"] "X" "Y";
     Ok (s, [("tau", tau); ("mu_z", mu_z); ("var_z", var_z); ("mu_x", mu_x); ("var_x", var_x);
             ("mu_y", mu_y); ("var_y", var_y); ("beta", beta); ("alpha", alpha)]), g3).

  (** ** frontdoor_scm (example_scm.py:87-169) *)
  (** g (example_scm.py:107-108) *)
  Definition logistic (x : N) : N := ndiv o (nint o 1) (nadd o (nint o 1) (nexp o (neg x))).

  (** the CPDs (example_scm.py:129-144) *)
  Definition fd_cpds (p beta gamma alpha_1 alpha_2 : N) : sdict (cpd N G) :=
    [("U", fun n _ g => binomial_n n p g);
     ("X", fun n ps g =>
        match parent ps 0 with
        | Err e => (Err e, g)
        | Ok u => binomial_sized n (map (fun v => logistic (nmul o alpha_1 v)) u) g
        end);
     ("Z", fun n ps g =>
        match parent ps 0 with
        | Err e => (Err e, g)
        | Ok x => binomial_sized n (map (fun v => logistic (nmul o beta v)) x) g
        end);
     ("Y", y_cpd gamma 0 alpha_2 1)].

  Definition frontdoor_scm (g : G) : res (scm N G * sdict N) * G :=
    let '(p, g1) := ew_uniform w c2 c8 g in
    let '(beta, g2) := ew_uniform w (neg (nint o 1)) (nint o 1) g1 in
    let '(gamma, g3) := ew_uniform w (nint o 5) (nint o 10) g2 in
    let '(alpha_1, g4) := ew_uniform w (neg c3) c3 g3 in
    let '(alpha_2, g5) := ew_uniform w (neg c3) c3 g4 in
    let one := nint o 1 in
    let two := nint o 2 in
    let mu_u := p in
    let var_u := nmul o p (nsub o one p) in
    let mu_x := nadd o (nmul o p (logistic alpha_1)) (ndiv o (nsub o one p) two) in
    let var_x := nmul o mu_x (nsub o one mu_x) in
    let mu_z := nadd o (nmul o mu_x (logistic beta)) (ndiv o (nsub o one mu_x) two) in
    let var_z := nmul o mu_z (nsub o one mu_z) in
    let mu_y := nadd o (nmul o gamma mu_z) (nmul o alpha_2 mu_u) in
    let tau := nmul o gamma (nsub o (logistic beta) half) in
    let pz1u1 := nmul o (nadd o (nmul o (logistic beta) (logistic alpha_1))
                                (nmul o half (nsub o one (logistic alpha_1)))) p in
    let pz1u0 := nmul o (nadd o (ndiv o (logistic beta) two) (nlit o 1 4)) (nsub o one p) in
    let pz0u1 := nmul o (nadd o (nmul o (nsub o one (logistic beta)) (logistic alpha_1))
                                (ndiv o (nsub o one (logistic alpha_1)) two)) p in
    let mu_y2 := nadd o (nadd o (nadd o one (nmul o (nadd o (nsq o gamma) (nsq o alpha_2)) pz1u1))
                                (nmul o (nsq o gamma) pz1u0)) (nmul o (nsq o alpha_2) pz0u1) in
    let var_y := nsub o mu_y2 (nsq o mu_y) in
    (do s <- scm_init "frontdoor example" ["U"; "X"; "Z"; "Y"]
               [("U", []); ("X", ["U"]); ("Z", ["X"]); ("Y", ["Z"; "U"])]
               (fd_cpds p beta gamma alpha_1 alpha_2) ["U"; "Z"] "X" "Y";
     Ok (s, [("tau", tau); ("mu_z", mu_z); ("var_z", var_z); ("mu_x", mu_x); ("var_x", var_x);
             ("mu_y", mu_y); ("var_y", var_y); ("mu_u", mu_u); ("var_u", var_u);
             ("alpha_1", alpha_1); ("alpha_2", alpha_2); ("beta", beta); ("gamma", gamma)]), g5).
End Examples.
