(** Model of /repo/causal_effect_bandits/plotting_utils.py and of the result object that
    run() hands to it (bandits.py:29-55, 264-265, 378-379, 540-541).

    Simplifications:
    - arms are identified by their position in the list of arms of the bandit, as in
      BanditModel; a position beyond the end stands for an arm of another bandit;
    - of the axis object only the sequence of drawing calls is kept; the fixed decorations
      (axis labels, spines, position of the legend, plotting_utils.py:59-63) are omitted, they
      do not depend on the arguments and cannot fail;
    - sample counts are naturals, all other numbers binary64. *)
From Coq Require Import String List Arith ZArith Bool.
From Verif Require Import PyBase Num NumOps BanditModel DataModel.
Import ListNotations.

(** BanditData (bandits.py:29-55): the dictionaries are lists indexed by the arm's position *)
Record banditdata : Type := mkBanditData {
  bd_lcb : list (list F); bd_ucb : list (list F); bd_var : list (list F);
  bd_smp : list (list nat); bd_cum : list nat; bd_best : list nat }.

(** "return BanditData(lcb_by_arm, ucb_by_arm, var_est_by_arm, samples_by_arm, cum_samples,
    best_arms)" (bandits.py:264-265, 378-379, 540-541) *)
Definition bandit_data {A G} (best : list nat) (s : bstate (A := A) (G := G)) : banditdata :=
  mkBanditData (map (map r_lcb) (b_hist s)) (map (map r_ucb) (b_hist s)) (map (map r_var) (b_hist s))
    (b_smp s) (b_cum s) best.

(** l[k:] with an integer or None (plotting_utils.py:49-52) *)
Definition slice_from {X} (k : option Z) (l : list X) : list X :=
  match k with
  | None => l
  | Some z => if (z <? 0)%Z then skipn (length l - Z.to_nat (- z)) l else skipn (Z.to_nat z) l
  end.

(** a lookup in one of the dictionaries keyed by arms (plotting_utils.py:50-52) *)
Definition by_arm {X} (d : list X) (i : nat) : res X :=
  match nth_error d i with Some x => Ok x | None => Err KeyError end.

(** one drawing call: a line with an optional label and an optional (color, alpha), or the band
    between two lines (plotting_utils.py:54-57) *)
Inductive mark : Type :=
| Line (xs : list nat) (ys : list F) (label : option string) (style : option (string * F))
| Band (xs : list nat) (lo hi : list F) (alpha : F).

(** ax.plot(xs, ys, ...) (plotting_utils.py:54-56): matplotlib raises ValueError when the two
    sequences have different lengths. The axis is returned also when the call raises. *)
Definition ax_plot (ax : list mark) xs ys label style : list mark * res unit :=
  if length xs =? length ys then (ax ++ [Line xs ys label style], Ok tt) else (ax, Err ValueError).
(** ax.fill_between(xs, lo, hi, alpha=...) (plotting_utils.py:57); sequences of different lengths
    raise ValueError (the broadcasting of sequences of length 1 is omitted: it cannot be
    reached, the three ax.plot calls before have compared the lengths) *)
Definition ax_fill_between (ax : list mark) xs lo hi alpha : list mark * res unit :=
  if (length xs =? length lo) && (length xs =? length hi) then (ax ++ [Band xs lo hi alpha], Ok tt)
  else (ax, Err ValueError).

(** the next drawing call, unless the one before raised (plotting_utils.py:54-57) *)
Definition and_then (r : list mark * res unit) (k : list mark -> list mark * res unit) :=
  match r with (ax, Ok _) => k ax | (ax, Err e) => (ax, Err e) end.

(** the body of the loop (plotting_utils.py:48-57) *)
Definition plot_arm (names : list string) (bd : banditdata) (k : option Z) (i : nat) (ax : list mark)
  : list mark * res unit :=
  let blue := Some ("tab:blue"%string, flit 1 10) in
  let num_samples := slice_from k (bd_cum bd) in
  match (do mid <- by_arm (bd_var bd) i;
         do lower <- by_arm (bd_lcb bd) i;
         do upper <- by_arm (bd_ucb bd) i;
         do name <- by_arm names i;
         Ok (slice_from k mid, slice_from k lower, slice_from k upper, name)) with
  | Err e => (ax, Err e)
  | Ok (mid, lower, upper, name) =>
      and_then (ax_plot ax num_samples mid (Some name) None) (fun ax =>
      and_then (ax_plot ax num_samples lower None blue) (fun ax =>
      and_then (ax_plot ax num_samples upper None blue) (fun ax =>
      ax_fill_between ax num_samples lower upper (flit 2 10))))
  end.

(** plot_bandit_results (plotting_utils.py:28-64): the axis and, when an arm raises, the marks
    drawn up to then *)
Fixpoint plot_bandit_results (names : list string) (bd : banditdata) (k : option Z) (arm_list : list nat)
  (ax : list mark) : list mark * res unit :=
  match arm_list with
  | [] => (ax, Ok tt)
  | i :: rest => and_then (plot_arm names bd k i ax) (plot_bandit_results names bd k rest)
  end.

(** the default of initial_points_to_ignore (plotting_utils.py:31) *)
Definition default_ignore : option Z := Some 0%Z.

(** what ax.legend collects (plotting_utils.py:63): the labels in drawing order *)
Definition legend (ax : list mark) : list string :=
  flat_map (fun m => match m with Line _ _ (Some l) _ => [l] | _ => [] end) ax.

(** ** plot_3d_function (plotting_utils.py:67-82)

    [f] is the plotted function; of the figure only the three arrays handed to plot_surface are
    kept, as lists of rows. *)
Section Surface.
  Context {N : Type} (o : numops N).

  (** np.linspace(lo, hi, n) (plotting_utils.py:71-72): lo + i * step with the last point set to
      hi; when the step underflows to zero, numpy scales i / (n - 1) instead *)
  Definition linspace (lo hi : N) (n : nat) : list N :=
    let delta := nsub o hi lo in
    let step := ndiv o delta (nnat o (n - 1)) in
    map (fun i =>
           if (i =? n - 1) && (1 <? n) then hi
           else nadd o (if neqb o step (nint o 0) then nmul o (ndiv o (nnat o i) (nnat o (n - 1))) delta
                        else nmul o (nnat o i) step) lo)
        (seq 0 n).

  (** np.meshgrid(x, y) (plotting_utils.py:73): x varies along the rows, y along the columns *)
  Definition meshgrid (x y : list N) : list (list N) * list (list N) :=
    (map (fun _ => x) y, map (fun v => map (fun _ => v) x) y).

  (** np.c_[x.flatten(), y.flatten()] (plotting_utils.py:75) *)
  Definition pairs (x y : list (list N)) : arr N :=
    mkArr [2] (map2 (fun u v => [u; v]) (concat x) (concat y)).

  (** np.reshape(z, (n, n)) (plotting_utils.py:76): ValueError unless z has n * n entries *)
  Definition reshape_square (n : nat) (z : arr N) : res (list (list N)) :=
    let l := concat (arows z) in
    if length l =? n * n then Ok (map (fun i => firstn n (skipn (i * n) l)) (seq 0 n)) else Err ValueError.

  (** plotting_utils.py:71-80 for a number of points *)
  Definition surface (n_points : nat) (f : arr N -> res (arr N)) (x_low x_high y_low y_high : N)
    : res (list (list N) * list (list N) * list (list N)) :=
    let '(x, y) := meshgrid (linspace x_low x_high n_points) (linspace y_low y_high n_points) in
    do z <- f (pairs x y);
    do z' <- reshape_square n_points z;
    Ok (x, y, z').

  (** plot_3d_function (plotting_utils.py:67-82) *)
  Definition plot_3d_function (f : arr N -> res (arr N)) (x_low x_high y_low y_high : N) :=
    surface 100 f x_low x_high y_low y_high.
End Surface.
