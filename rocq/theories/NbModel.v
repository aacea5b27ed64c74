(** Model of the code cells of /repo/notebooks/paper_experiments.ipynb that evaluate bandit runs.
    The line numbers are those of the notebook file.

    Simplifications:
    - arms are identified by their position, as in BanditModel;
    - printing and the decoration of figures are omitted;
    - the parts of a cell that call the package are given by the models of the package where the
      statements need them, otherwise by functions that may return or raise. *)
From Coq Require Import String List Arith ZArith Bool.
From Verif Require Import PyBase Num NumOps DataModel ScmModel BanditModel PaperModel UtilModel CpdModel PlotModel.
Import ListNotations.
Open Scope list_scope.
Open Scope nat_scope.

(** ** Order statistics *)

(** the order of np.sort (paper_experiments.ipynb:374, 451, 564): NaN comes last *)
Definition sorts_before (x y : F) : bool := fltb x y || (negb (fisnan x) && fisnan y).

(** insertion into a sorted list (paper_experiments.ipynb:374, 451, 564) *)
Fixpoint insert_sorted (x : F) (l : list F) : list F :=
  match l with
  | [] => [x]
  | y :: l' => if sorts_before y x then y :: insert_sorted x l' else x :: l
  end.

(** np.sort(l) and l.sort() (paper_experiments.ipynb:374, 451, 564). Which of 0. and -0. comes
    first is not specified by numpy and makes no difference to the comparisons made here. *)
Definition np_sort (l : list F) : list F := fold_right insert_sorted [] l.

(** results.var_est_by_arm[a][-1] (paper_experiments.ipynb:374-375) *)
Definition last_var (bd : banditdata) (i : nat) : res F :=
  do l <- by_arm (bd_var bd) i;
  match rev l with [] => Err IndexError | v :: _ => Ok v end.

(** top_arms (paper_experiments.ipynb:374-375) *)
Definition top_arms (m : nat) (bd : banditdata) (arm_list : list nat) : res (list nat) :=
  do vs <- mapM (last_var bd) arm_list;
  do cutoff <- at_ (np_sort vs) m;
  Ok (select (map (fun v => fltb v cutoff) vs) arm_list).

(** sorted_vars[1] - sorted_vars[0] > 5 (paper_experiments.ipynb:450-454, 563-567) *)
Definition gap_check (vs : list F) : res bool :=
  let sorted := np_sort vs in
  do b <- at_ sorted 1;
  do a <- at_ sorted 0;
  Ok (fltb (f_of_Z 5) (fsub b a)).

(** ** The bar of the uniform algorithm in the figures *)

(** max of the samples per arm in the run of successive elimination, times the number of arms
    (paper_experiments.ipynb:477-480, 590-593, 684) *)
Definition uniform_bar (bd : banditdata) (arm_list : list nat) : res nat :=
  do sums <- mapM (fun a => do l <- by_arm (bd_smp bd) a; Ok (list_sum l)) arm_list;
  do m <- py_max Nat.ltb sums;
  Ok (m * length arm_list).

(** results.cum_samples[-1] (paper_experiments.ipynb:468, 474, 581, 587, 677, 682) *)
Definition last_cum (bd : banditdata) : res nat :=
  match rev (bd_cum bd) with [] => Err IndexError | n :: _ => Ok n end.

(** ** The loop over instances *)
Section Experiment.
  (** [S]: everything the cell changes outside its four lists. [probe]: constructing the instance
      with this seed and estimating the variances of its arms (paper_experiments.ipynb:429-458,
      542-571), true if the gap is large enough. [repetition]: one repetition, the samples used by
      LUCB, successive elimination and the uniform bar (paper_experiments.ipynb:462-480, 575-593) *)
  Context {S : Type} (probe : nat -> S -> res bool * S) (repetition : nat -> nat -> S -> res (nat * nat * nat) * S).
  Variables (n_instances n_repetitions : nat).

  (** LUCB_samples, SE_samples, uniform_bandit_samples, instance_history
      (paper_experiments.ipynb:418-421, 531-534), the next instance and the rest *)
  Record lists : Type := mkLists {
    l_lucb : list nat; l_se : list nat; l_uniform : list nat; l_history : list nat;
    l_next : nat; l_rest : S }.

  (** for m in range(n_repetitions) (paper_experiments.ipynb:460-480, 573-593), for the remaining
      values of m *)
  Fixpoint repetitions (instance : nat) (ms : list nat) (x : lists) : lists * option exn :=
    match ms with
    | [] => (x, None)
    | m :: ms' =>
        let h := l_history x ++ [instance] in
        match repetition instance m (l_rest x) with
        | (Err e, st) => (mkLists (l_lucb x) (l_se x) (l_uniform x) h (l_next x) st, Some e)
        | (Ok (a, b, c), st) =>
            repetitions instance ms'
              (mkLists (l_lucb x ++ [a]) (l_se x ++ [b]) (l_uniform x ++ [c]) h (l_next x) st)
        end
    end.

  (** one evaluation of the while loop (paper_experiments.ipynb:424-480, 537-593) *)
  Definition experiment_step (x : lists) : step lists unit :=
    if length (l_lucb x) <? n_instances * n_repetitions then
      let instance := l_next x in
      match probe instance (l_rest x) with
      | (Err e, st) => Fail e (mkLists (l_lucb x) (l_se x) (l_uniform x) (l_history x) (Datatypes.S instance) st)
      | (Ok ok, st) =>
          let x1 := mkLists (l_lucb x) (l_se x) (l_uniform x) (l_history x) (Datatypes.S instance) st in
          if ok then
            match repetitions instance (seq 0 n_repetitions) x1 with
            | (x2, Some e) => Fail e x2
            | (x2, None) => Continue x2
            end
          else Continue x1
      end
    else Finish tt x.

  (** the cell up to the figure (paper_experiments.ipynb:418-480, 531-593) *)
  Definition experiment (fuel : nat) (st : S) : outcome lists unit :=
    loop fuel experiment_step (mkLists [] [] [] [] 0 st).
End Experiment.
Arguments lists : clear implicits.
Arguments mkLists {S}.
Arguments l_lucb {S}.
Arguments l_se {S}.
Arguments l_uniform {S}.
Arguments l_history {S}.
Arguments l_next {S}.
Arguments l_rest {S}.

(** ** Section 5.2, continued *)

(** back_door_size_list and sample_limit_list (paper_experiments.ipynb:639-640) *)
Definition back_door_sizes : list nat := repeat 3 10 ++ repeat 4 10 ++ repeat 5 5 ++ repeat 6 5.
Definition sample_limits : list Z := repeat 100000%Z 20 ++ repeat 600000%Z 10.

Section Continued.
  Context {N G Q M : Type} (o : numops N) (w : cpd_world N G) (r : rng_world N Q) (gpr : gp N M).
  (** [paths]: the argument num_back_door_paths of the call, as a function of num_back_door.
      [evaluate]: the rest of the body, from np.random.seed(instance) to the third append
      (paper_experiments.ipynb:669-685). [big]: as in PaperModel. *)
  Variables (paths : nat -> nat) (evaluate : nat -> @example N G -> G -> outcome G (nat * nat * nat)) (big : nat).

  (** Z_dim and V_dim (paper_experiments.ipynb:415-416, 528-529, 652-653) *)
  Definition z_dims (num_back_door : nat) : list nat := 2 :: repeat 3 num_back_door.
  Definition v_dims (num_back_door : nat) : list nat := 0 :: repeat 2 num_back_door.

  (** the construction of one instance (paper_experiments.ipynb:652-666); units_per_round = 500
      (line 647) *)
  Definition instance_52 (num_back_door : nat) (limit : Z) (instance : nat) (entropy : Q) (fuel : nat) (g : G) :=
    section_5_2_example o w r gpr big (z_dims num_back_door) (v_dims num_back_door) (Z.of_nat instance)
      (nint o 2) (nint o 1) (nint o 5) (paths num_back_door) limit 500 false entropy fuel g.

  (** the loop over zip(back_door_size_list, sample_limit_list) (paper_experiments.ipynb:649-685):
      the samples collected so far, by number of back-door paths *)
  Fixpoint continued (todo : list (nat * Z)) (instance : nat) (acc : list (nat * (nat * nat * nat))) (entropy : Q)
      (fuel : nat) (g : G) : outcome G (list (nat * (nat * nat * nat))) :=
    match todo with
    | [] => Returned acc g
    | (b, limit) :: todo' =>
        match instance_52 b limit instance entropy fuel g with
        | OutOfFuel g1 => OutOfFuel g1
        | Raised e g1 => Raised e g1
        | Returned ex g1 =>
            match evaluate instance ex g1 with
            | OutOfFuel g2 => OutOfFuel g2
            | Raised e g2 => Raised e g2
            | Returned n g2 => continued todo' (S instance) (acc ++ [(b, n)]) entropy fuel g2
            end
        end
    end.

  (** the cell up to the figure (paper_experiments.ipynb:639-685) *)
  Definition continued_cell (entropy : Q) (fuel : nat) (g : G) :=
    continued (combine back_door_sizes sample_limits) 0 [] entropy fuel g.
End Continued.

(** the argument of the call as it stands: num_back_door_paths=3 (paper_experiments.ipynb:663) *)
Definition notebook_paths : nat -> nat := fun _ => 3.

(** ** The minimum working example *)
Section Minimal.
  Context {N G : Type} (o : numops N) (w : cpd_world N G).

  (** "Z": np.random.binomial(1, 1/3, size=n) (paper_experiments.ipynb:196-197) *)
  Definition mwe_z : cpd N G := fun n _ g =>
    let '(l, g1) := cw_binom w (repeat (ndiv o (nint o 1) (nint o 3)) n) g in (do l <- l; Ok (vec l), g1).
  (** the entry parents[i] of the list of parents (paper_experiments.ipynb:199, 201, 203-204) *)
  Definition parent (parents : list (arr N)) (i : nat) : res (val N) := do a <- at_ parents i; Ok (VArr a).
  (** "X": np.random.binomial(1, .5 + .1 * parents[0]) (paper_experiments.ipynb:198-199) *)
  Definition mwe_x : cpd N G := fun _ parents g =>
    match (do z <- parent parents 0;
           do p <- vop (nadd o) (VNum (nlit o 5 10)) (vmap (nmul o (nlit o 1 10)) z);
           match p with VArr a => match atail a with [] => Ok (entries a) | _ => Err OracleError end | VNum _ => Err OracleError end) with
    | Err e => (Err e, g)
    | Ok ps => let '(l, g1) := cw_binom w ps g in (do l <- l; Ok (vec l), g1)
    end.
  (** "Z2": np.random.normal(.1 * parents[0], 1) (paper_experiments.ipynb:200-201) *)
  Definition mwe_z2 : cpd N G := fun _ parents g =>
    match (do z <- parent parents 0;
           match vmap (nmul o (nlit o 1 10)) z with VArr a => match atail a with [] => Ok (entries a) | _ => Err OracleError end | VNum _ => Err OracleError end) with
    | Err e => (Err e, g)
    | Ok ms => let '(l, g1) := cw_normal w ms (repeat (nint o 1) (length ms)) g in (do l <- l; Ok (vec l), g1)
    end.
  (** "Y": np.random.normal(size=len(parents[0])) + .25 * parents[1] + .25 * parents[0]
      (paper_experiments.ipynb:202-204) *)
  Definition mwe_y : cpd N G := fun _ parents g =>
    match at_ parents 0 with
    | Err e => (Err e, g)
    | Ok p0 =>
        let n := alen p0 in
        match cw_normal w (repeat (nint o 0) n) (repeat (nint o 1) n) g with
        | (Err e, g1) => (Err e, g1)
        | (Ok l, g1) =>
            as_sample (do x <- parent parents 1;
                       do s <- vop (nadd o) (VArr (vec l)) (vmap (nmul o (nlit o 25 100)) x);
                       vop (nadd o) s (vmap (nmul o (nlit o 25 100)) (VArr p0)), g1)
        end
    end.

  (** parents and cpds (paper_experiments.ipynb:188-205) *)
  Definition mwe_parents : sdict (list string) := [("Z", []); ("X", ["Z"]); ("Y", ["Z2"; "X"]); ("Z2", ["Z"])]%string.
  Definition mwe_cpds : sdict (cpd N G) := [("Z", mwe_z); ("X", mwe_x); ("Z2", mwe_z2); ("Y", mwe_y)]%string.
  (** scm_gen (paper_experiments.ipynb:182-185, 208-216) *)
  Definition mwe_scm : res (scm N G) :=
    scm_init "back-door example" ["Z"; "Z2"; "X"; "Y"] mwe_parents mwe_cpds ["Z"; "Z2"] "X" "Y".
End Minimal.
