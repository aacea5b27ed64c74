(** Model of /repo/causal_effect_bandits/arms.py, generic in the number type. *)
From Coq Require Import List Arith ZArith Bool.
From Verif Require Import PyBase Num NumOps DataModel BanditModel.
Import ListNotations.

(** What an arm uses of its nuisance parameter (parameters.py:32-141): [H] the parameter's
    state. fit may raise; the new state is returned in any case. [e_enough] is the truth value
    of has_enough_samples() (the base class returns None, which is false). [e_width] is
    calculate_cs_width(delta, sub_g=..., rho=...); the base class returns None. *)
Record eta_ops (N V H G : Type) : Type := mkEta {
  e_fit : H -> expdata V -> G -> (H * G) * option exn;
  e_enough : H -> bool;
  e_score : H -> expdata V -> H * res (list N);
  e_width : H -> N -> N -> N -> res (option N);
  e_reset : H -> H }.
Arguments e_fit {N V H G} e.
Arguments e_enough {N V H G} e.
Arguments e_score {N V H G} e.
Arguments e_width {N V H G} e.
Arguments e_reset {N V H G} e.

(** Random draws (np.random.permutation, data.py:88, and the uniforms behind
    np.random.choice, data.py:117) and scipy's quantile functions (arms.py:241-256). *)
Record arm_world (N G : Type) : Type := mkArmWorld {
  aw_perm : G -> list nat -> list nat * G;
  aw_draw : G -> nat -> list F * G;
  aw_chi2 : N -> Z -> N;
  aw_norm : N -> N }.
Arguments aw_perm {N G} a.
Arguments aw_draw {N G} a.
Arguments aw_chi2 {N G} a.
Arguments aw_norm {N G} a.

(** CIAlgorithm (arms.py:133-136); [OtherCI] is any other object passed as ci_algorithm *)
Inductive ci_algorithm : Type := CHI2 | CLT | FINITE_SAMPLE | OtherCI.

(** The attributes of an arm that change (arms.py:69-77, 206). [ar_ci] starts as (-inf, inf);
    reset makes it (None, None). [ar_delta] is None while the attribute does not exist. *)
Record arm (N V H : Type) : Type := mkArm {
  ar_ci : option N * option N;
  ar_eta : H;
  ar_ate : option N;
  ar_var : option N;
  ar_pulled : nat;
  ar_split : option (list (expdata V));
  ar_delta : option N }.
Arguments mkArm {N V H} ar_ci ar_eta ar_ate ar_var ar_pulled ar_split ar_delta.
Arguments ar_ci {N V H} a.
Arguments ar_eta {N V H} a.
Arguments ar_ate {N V H} a.
Arguments ar_var {N V H} a.
Arguments ar_pulled {N V H} a.
Arguments ar_split {N V H} a.
Arguments ar_delta {N V H} a.

(** options of SampleSplittingArm (arms.py:164-185) *)
Record ss_opts (N : Type) : Type := mkSS {
  so_ci : ci_algorithm; so_stable : bool; so_subg : N; so_eta_subg : N; so_tau : N;
  so_burn : N; so_rho : N }.
Arguments mkSS {N} so_ci so_stable so_subg so_eta_subg so_tau so_burn so_rho.
Arguments so_ci {N} s.
Arguments so_stable {N} s.
Arguments so_subg {N} s.
Arguments so_eta_subg {N} s.
Arguments so_tau {N} s.
Arguments so_burn {N} s.
Arguments so_rho {N} s.

(** default options (arms.py:165-176) *)
Definition ss_default {N} (o : numops N) : ss_opts N :=
  mkSS FINITE_SAMPLE true (nint o 1) (nint o 1) (nint o 1) (nint o 0) (nlit o 1 10).

Section Arms.
  Context {N V H G : Type} (o : numops N) (vnone : V) (eo : eta_ops N V H G) (w : arm_world N G).
  (** the data_transformer argument (arms.py:67, 71) *)
  Variable transform : expdata V -> res (expdata V).

  (** VarianceEstimatorArm.__init__ (arms.py:64-77) *)
  Definition arm_new (eta : H) : arm N V H :=
    mkArm (Some (nsub o (nint o 0) (ninf o)), Some (ninf o)) eta None None 0 None None.

  (** VarianceEstimatorArm.reset (arms.py:94-101); SampleSplittingArm.reset (arms.py:289-291)
      additionally clears the split data, which is already None *)
  Definition arm_reset (a : arm N V H) : arm N V H :=
    mkArm (None, None) (e_reset eo (ar_eta a)) None None 0 None (ar_delta a).

  (** VarianceEstimatorArm.update (arms.py:79-92): num_pulled is a property without setter *)
  Definition base_update (a : arm N V H) : arm N V H * option exn :=
    (mkArm (Some (nint o 0), Some (ninf o)) (ar_eta a) (ar_ate a) (ar_var a) (ar_pulled a)
           (ar_split a) (ar_delta a), Some AttributeError).

  (** VarianceEstimatorArm.get_num_units (arms.py:103-105) *)
  Definition base_units (a : arm N V H) : nat := 0.

  (** assignment to self._split_data (arms.py:209, 214, 216) *)
  Definition set_split (a : arm N V H) (s : option (list (expdata V))) : arm N V H :=
    mkArm (ar_ci a) (ar_eta a) (ar_ate a) (ar_var a) (ar_pulled a) s (ar_delta a).
  (** self._eta changed by one of its methods (arms.py:219, 230) *)
  Definition set_eta (a : arm N V H) (h : H) : arm N V H :=
    mkArm (ar_ci a) h (ar_ate a) (ar_var a) (ar_pulled a) (ar_split a) (ar_delta a).
  (** assignment to self._ci (arms.py:224, 245, 257, 269, 277, 369) *)
  Definition set_ci (a : arm N V H) (l u : N) : arm N V H :=
    mkArm (Some l, Some u) (ar_eta a) (ar_ate a) (ar_var a) (ar_pulled a) (ar_split a) (ar_delta a).
  (** assignment to self._ate (arms.py:225, 231, 372) *)
  Definition set_ate (a : arm N V H) (x : N) : arm N V H :=
    mkArm (ar_ci a) (ar_eta a) (Some x) (ar_var a) (ar_pulled a) (ar_split a) (ar_delta a).
  (** assignment to self._var_est (arms.py:226, 234, 374) *)
  Definition set_var (a : arm N V H) (x : N) : arm N V H :=
    mkArm (ar_ci a) (ar_eta a) (ar_ate a) (Some x) (ar_pulled a) (ar_split a) (ar_delta a).

  (** self._data_transformer(new_data).k_fold(2) (arms.py:209, 212, 216, 336, 339, 343) *)
  Definition split_new (d : expdata V) (g : G) : res (list (expdata V)) * G :=
    match transform d with
    | Err e => (Err e, g)
    | Ok t =>
        let ids := map (fun j => j mod 2) (seq 0 (n_units t)) in
        (k_fold (fun l => fst (aw_perm w g l)) t 2, snd (aw_perm w g ids))
    end.

  (** "for i in range(2): self._split_data[i].append(new_split[i])" (arms.py:213-214,
      340-341): stops at the first append that raises *)
  Fixpoint append_folds (fs ns : list (expdata V)) : list (expdata V) * option exn :=
    match fs, ns with
    | f :: fs', n :: ns' =>
        match append vnone f n with
        | (f', Some e) => (f' :: fs', Some e)
        | (f', None) => let '(rest, e) := append_folds fs' ns' in (f' :: rest, e)
        end
    | _, _ => (fs, None)
    end.

  (** the data part of update (arms.py:201-216, 328-344): validation, counters, folds *)
  Definition absorb (stable : bool) (a : arm N V H) (d : expdata V) (delta : N) (g : G)
    : (arm N V H * G) * option exn :=
    if negb (nltb o (nint o 0) delta && nltb o delta (nint o 1)) then ((a, g), Some ValueError)
    else
      let a1 := mkArm (ar_ci a) (ar_eta a) (ar_ate a) (ar_var a) (S (ar_pulled a)) (ar_split a) (Some delta) in
      match split_new d g with
      | (Err e, g1) => ((a1, g1), Some e)
      | (Ok ns, g1) =>
          match ar_split a, stable with
          | Some fs, true =>
              let '(fs', e) := append_folds fs ns in ((set_split a1 (Some fs'), g1), e)
          | _, _ => ((set_split a1 (Some ns), g1), None)
          end
      end.

  (** self._split_data[i] (arms.py:219, 230, 358) *)
  Definition fold (a : arm N V H) (i : nat) : res (expdata V) :=
    match ar_split a with
    | None => Err TypeError
    | Some fs => match nth_error fs i with Some f => Ok f | None => Err IndexError end
    end.

  (** self._eta.calculate_score(self._split_data[1]) (arms.py:230, 235, 250, 372, 374) *)
  Definition score1 (a : arm N V H) : arm N V H * res (list N) :=
    match fold a 1 with
    | Err e => (a, Err e)
    | Ok f => let '(h, r) := e_score eo (ar_eta a) f in (set_eta a h, r)
    end.

  (** the CHI2 interval (arms.py:239-245) *)
  Definition chi2_ci (var delta : N) (n : nat) : N * N :=
    let m := nint o (Z.of_nat n - 1) in
    let df := (Z.of_nat n - 1)%Z in
    let half := ndiv o delta (nint o 2) in
    (ndiv o (nmul o var m) (aw_chi2 w (nsub o (nint o 1) half) df),
     ndiv o (nmul o var m) (aw_chi2 w half df)).

  (** delta / self._num_pulled**2 (arms.py:248) *)
  Definition clt_delta (delta : N) (pulled : nat) : N := ndiv o delta (nnat o (pulled * pulled)).

  (** the CLT interval (arms.py:247-257) *)
  Definition clt_ci (var ate cdelta : N) (scores : list N) (n : nat) : N * N :=
    let vv := nvar o (map (fun s => nsq o (nsub o s ate)) scores) in
    let se := nsqrt o (ndiv o vv (nnat o n)) in
    let half := ndiv o cdelta (nint o 2) in
    (nmax o (nadd o var (nmul o (aw_norm w half) se)) (nint o 0),
     nadd o var (nmul o (aw_norm w (nsub o (nint o 1) half)) se)).

  (** the half-width of the finite-sample interval (arms.py:271-276) *)
  Definition fs_width (opts : ss_opts N) (delta : N) (n : nat) (eta_w : N) : N :=
    let sg := so_subg opts in
    let lambdap := nmax o sg (nmul o (nint o 8) (nsq o sg)) in
    let w0 := nmul o (nlit o 5 8) (nadd o (nsqrt o (nmul o (nint o 2) sg)) (so_tau opts)) in
    let lg := nlog o (ndiv o (nmul o lambdap (nnat o n)) (so_burn opts)) in
    let arg := nadd o (nadd o (ndiv o (nmul o (nint o 2) lg) (nnat o n)) (nlit o 1 2))
                      (nlog o (ndiv o (nint o 4) delta)) in
    let w1 := nmul o w0 (ndiv o (nsqrt o arg) (nsqrt o (nnat o n))) in
    nadd o w1 (nsq o eta_w).

  (** the finite-sample interval around var (arms.py:277) *)
  Definition fs_ci (var width : N) : N * N :=
    (nmax o (nsub o var width) (nint o 0), nadd o var width).

  (** SampleSplittingArm.update (arms.py:187-281): the new arm, the random state, and the
      returned interval or the exception *)
  Definition ss_update (opts : ss_opts N) (a : arm N V H) (d : expdata V) (delta : N) (g : G)
    : (arm N V H * G) * res (N * N) :=
    match absorb (so_stable opts) a d delta g with
    | ((a1, g1), Some e) => ((a1, g1), Err e)
    | ((a1, g1), None) =>
        match fold a1 0 with
        | Err e => ((a1, g1), Err e)
        | Ok f0 =>
            match e_fit eo (ar_eta a1) f0 g1 with
            | ((h, g2), Some e) => ((set_eta a1 h, g2), Err e)
            | ((h, g2), None) =>
                let a2 := set_eta a1 h in
                if negb (e_enough eo h) then
                  ((set_var (set_ate (set_ci a2 (nint o 0) (ninf o)) (nnan o)) (ninf o), g2),
                   Ok (nint o 0, ninf o))
                else
                  match score1 a2 with
                  | (a3, Err e) => ((a3, g2), Err e)
                  | (a3, Ok scores) =>
                      let ate := nmean o scores in
                      let a4 := set_ate a3 ate in
                      match score1 a4 with
                      | (a5, Err e) => ((a5, g2), Err e)
                      | (a5, Ok scores2) =>
                          let var := nmean o (map (fun s => nsq o (nsub o s ate)) scores2) in
                          let a6 := set_var a5 var in
                          if nisnan o var then ((a6, g2), Err ValueError)
                          else
                            match fold a6 1 with
                            | Err e => ((a6, g2), Err e)
                            | Ok f1 =>
                                let n := n_units f1 in
                                match so_ci opts with
                                | CHI2 =>
                                    let '(l, u) := chi2_ci var delta n in
                                    ((set_ci a6 l u, g2), Ok (l, u))
                                | CLT =>
                                    match score1 a6 with
                                    | (a7, Err e) => ((a7, g2), Err e)
                                    | (a7, Ok scores3) =>
                                        let '(l, u) := clt_ci var ate (clt_delta delta (ar_pulled a7)) scores3 n in
                                        ((set_ci a7 l u, g2), Ok (l, u))
                                    end
                                | FINITE_SAMPLE =>
                                    if nleb o (so_tau opts) (nint o 0) || nleb o (so_burn opts) (nint o 1)
                                       || nleb o (so_subg opts) (nint o 0)
                                    then ((a6, g2), Err ValueError)
                                    else
                                      match e_width eo (ar_eta a6) (ndiv o delta (nint o 2)) (so_eta_subg opts) (so_rho opts) with
                                      | Err e => ((a6, g2), Err e)
                                      | Ok ew =>
                                          if nltb o (nnat o n) (so_burn opts) then
                                            ((set_ci a6 (nint o 0) (ninf o), g2), Ok (nint o 0, ninf o))
                                          else
                                            match ew with
                                            | None => ((a6, g2), Err TypeError)
                                            | Some x =>
                                                let '(l, u) := fs_ci var (fs_width opts delta n x) in
                                                ((set_ci a6 l u, g2), Ok (l, u))
                                            end
                                      end
                                | OtherCI => ((a6, g2), Err ValueError)
                                end
                            end
                      end
                  end
            end
        end
    end.

  (** SampleSplittingArm.get_num_units (arms.py:283-287) *)
  Definition ss_units (a : arm N V H) : nat :=
    match ar_split a with
    | None => 0
    | Some fs => list_sum (map (@n_units V) fs)
    end.

  (** the order used by np.ndarray.sort (arms.py:366): NaN last *)
  Definition sort_before (x y : N) : bool := nisnan o y || nltb o x y.
  (** insertion step of the sort (arms.py:366) *)
  Fixpoint insert (x : N) (l : list N) : list N :=
    match l with
    | [] => [x]
    | y :: ys => if sort_before x y then x :: y :: ys else y :: insert x ys
    end.
  (** b_samples.sort() (arms.py:366) *)
  Definition np_sort (l : list N) : list N := fold_right insert [] l.

  (** indexing with an int, negative from the end (arms.py:367-368) *)
  Definition index_at {X} (l : list X) (i : Z) : res X :=
    do j <- norm_index (length l) i;
    match nth_error l j with Some x => Ok x | None => Err IndexError end.

  (** 1.0 / n_bootstraps as a float (arms.py:358) *)
  Definition boot_prob (n : nat) : F := fdiv (f_of_Z 1) (f_of_nat n).

  (** the bootstrap loop (arms.py:354-362): [n] remaining iterations out of [total] *)
  Fixpoint boot_loop (total n : nat) (a : arm N V H) (g : G) (acc : list N)
    : (arm N V H * G) * res (list N) :=
    match n with
    | O => ((a, g), Ok acc)
    | S n' =>
        match fold a 0 with
        | Err e => ((a, g), Err e)
        | Ok f0 =>
            let us := aw_draw w g (n_units f0) in
            match subsample (fun _ => fst us) f0 (boot_prob total) with
            | Err e => ((a, snd us), Err e)
            | Ok (din, dout) =>
                match e_fit eo (ar_eta a) din (snd us) with
                | ((h, g2), Some e) => ((set_eta a h, g2), Err e)
                | ((h, g2), None) =>
                    let '(h2, r) := e_score eo h dout in
                    let a2 := set_eta a h2 in
                    match r with
                    | Err e => ((a2, g2), Err e)
                    | Ok scores => boot_loop total n' a2 g2 (acc ++ [nvar o scores])
                    end
                end
            end
        end
    end.

  (** the number of bootstraps (arms.py:349-352) *)
  Definition boot_count (nb : Z) (delta : N) : res Z :=
    if (nb =? 0)%Z then nceil o (ndiv o (nint o 4) delta) else Ok nb.

  (** int(np.floor(delta / 2 * n_bootstraps)) (arms.py:367) *)
  Definition boot_lo (delta : N) (b : Z) : res Z :=
    nfloor o (nmul o (ndiv o delta (nint o 2)) (nint o b)).
  (** int(np.ceil((1 - delta / 2) * n_bootstraps)) - 1 (arms.py:368) *)
  Definition boot_hi (delta : N) (b : Z) : res Z :=
    do c <- nceil o (nmul o (nsub o (nint o 1) (ndiv o delta (nint o 2))) (nint o b));
    Ok (c - 1)%Z.

  (** BootstrapArm.update (arms.py:314-376); [nb] is self.n_bootstraps *)
  Definition bs_update (stable : bool) (nb : Z) (a : arm N V H) (d : expdata V) (delta : N) (g : G)
    : (arm N V H * G) * res (N * N) :=
    match absorb stable a d delta g with
    | ((a1, g1), Some e) => ((a1, g1), Err e)
    | ((a1, g1), None) =>
        match fold a1 0 with
        | Err e => ((a1, g1), Err e)
        | Ok f0 =>
            match e_fit eo (ar_eta a1) f0 g1 with
            | ((h, g2), Some e) => ((set_eta a1 h, g2), Err e)
            | ((h, g2), None) =>
                let a2 := set_eta a1 h in
                match boot_count nb delta with
                | Err e => ((a2, g2), Err e)
                | Ok b =>
                    match boot_loop (Z.to_nat b) (Z.to_nat b) a2 g2 [] with
                    | ((a3, g3), Err e) => ((a3, g3), Err e)
                    | ((a3, g3), Ok samples) =>
                        let sorted := np_sort samples in
                        match (do i <- boot_lo delta b; do l <- index_at sorted i;
                               do j <- boot_hi delta b; do u <- index_at sorted j; Ok (l, u)) with
                        | Err e => ((a3, g3), Err e)
                        | Ok (l, u) =>
                            let a4 := set_ci a3 l u in
                            match score1 a4 with
                            | (a5, Err e) => ((a5, g3), Err e)
                            | (a5, Ok s1) =>
                                let a6 := set_ate a5 (nmean o s1) in
                                match score1 a6 with
                                | (a7, Err e) => ((a7, g3), Err e)
                                | (a7, Ok s2) => ((set_var a7 (nvar o s2), g3), Ok (l, u))
                                end
                            end
                        end
                    end
                end
            end
        end
    end.
End Arms.

(** A SampleSplittingArm with binary64 numbers as seen by the bandit algorithms
    (bandits.py:138, 191-193, 242-245, 354-358: cost, ci, var_est, get_num_units, update and
    reset; the arm is arms.py:139-291). *)
Definition ss_arm_ops {V H G} (lib : libm) (vnone : V) (eo : eta_ops F V H G) (w : arm_world F G)
  (transform : expdata V -> res (expdata V)) (opts : ss_opts F) (cost : F)
  : arm_ops (arm F V H) (expdata V) G :=
  mkArmOps (arm F V H) (expdata V) G
    (fun _ => cost) ar_ci ar_var ss_units
    (fun a d delta g =>
       match ss_update (f64 lib) vnone eo w transform opts a d delta g with
       | (s, Ok _) => (s, None)
       | (s, Err e) => (s, Some e)
       end)
    (arm_reset eo).

(** A BootstrapArm as seen by the bandit algorithms; get_num_units is inherited
    (arms.py:103-105, 294-376) *)
Definition bs_arm_ops {V H G} (lib : libm) (vnone : V) (eo : eta_ops F V H G) (w : arm_world F G)
  (transform : expdata V -> res (expdata V)) (stable : bool) (nb : Z) (cost : F)
  : arm_ops (arm F V H) (expdata V) G :=
  mkArmOps (arm F V H) (expdata V) G
    (fun _ => cost) ar_ci ar_var base_units
    (fun a d delta g =>
       match bs_update (f64 lib) vnone eo w transform stable nb a d delta g with
       | (s, Ok _) => (s, None)
       | (s, Err e) => (s, Some e)
       end)
    (arm_reset eo).
