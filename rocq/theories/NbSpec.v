(** Vocabulary for the statements about the notebook. *)
From Coq Require Import List Arith ZArith Reals Bool.
From Flocq Require Import Core BinarySingleNaN.
From Verif Require Import PyBase Num NumLemmas BanditModel BanditSpec PlotModel NbModel NumOps DataModel ScmModel TabSpec ExampleSpec CpdModel CpdSpec.
Import ListNotations.
Open Scope nat_scope.

(** the last entry of the history of every arm in the list *)
Definition last_entries {Y} (hs : list (list Y)) (is : list nat) (vs : list Y) : Prop :=
  Forall2 (fun i v => exists h, nth_error hs i = Some (h ++ [v])) is vs.

(** how many of the values are at most [v], and how many are numbers *)
Definition at_most (vs : list F) (v : F) : nat := length (filter (fun u => fleb u v) vs).
Definition numbers (vs : list F) : nat := length (filter (fun u => negb (fisnan u)) vs).
(** [v] belongs to the lowest [m] values, with room for everything that ties with it *)
Definition among_lowest (m : nat) (vs : list F) (v : F) : bool :=
  (m <? numbers vs) && negb (fisnan v) && (at_most vs v <=? m).

(** [x] does not come after [y] when NaN is larger than everything *)
Definition not_above (x y : F) : Prop := fisnan y = true \/ (num x /\ num y /\ (fkey x <= fkey y)%R).

(** ** Arms that behave the same way in every algorithm *)

(** arm [i] after [k] updates with consecutive batches of [u] units from the same data set, and the
    reading it gives after update number [k] (from 0): the next update needs the next batch, and
    gives the next reading whatever the random state *)
Definition scripted {A D G} (ops : arm_ops A D G) (w : world D G) (data : D) (u : nat) (delta : F)
    (at_update : nat -> nat -> A -> Prop) (rdg : nat -> nat -> reading) : Prop :=
  forall i k a g, at_update i k a -> a_units ops a = k * u /\
    exists d a' g', w_slice w data (k * u) (k * u + u) = Ok d /\ a_update ops a d delta g = ((a', g'), None) /\
      at_update i (S k) a' /\ reports ops a' (rdg i k).

Definition lo_end (rdg : nat -> nat -> reading) (i t : nat) : R := B2R (r_lcb (rdg i t)).
Definition hi_end (rdg : nat -> nat -> reading) (i t : nat) : R := B2R (r_ucb (rdg i t)).

(** finite intervals that contain their estimates, shrink, and do not touch each other *)
Record nested (K : nat) (rdg : nat -> nat -> reading) : Prop := mkNested {
  ns_finite : forall i t, i < K -> is_finite (r_lcb (rdg i t)) = true /\ is_finite (r_ucb (rdg i t)) = true /\ is_finite (r_var (rdg i t)) = true;
  ns_proper : forall i t, i < K -> (lo_end rdg i t < hi_end rdg i t)%R;
  ns_inside : forall i t, i < K -> (lo_end rdg i t <= B2R (r_var (rdg i t)) <= hi_end rdg i t)%R;
  ns_shrink : forall i t, i < K -> (lo_end rdg i t <= lo_end rdg i (S t))%R /\ (hi_end rdg i (S t) <= hi_end rdg i t)%R;
  ns_apart : forall i j t, i < K -> j < K -> i <> j -> lo_end rdg i t <> hi_end rdg j t }.

(** after round [t] the interval of arm [i] is below those of all others *)
Definition decided (K : nat) (rdg : nat -> nat -> reading) (t i : nat) : Prop :=
  i < K /\ forall j, j < K -> j <> i -> (hi_end rdg i t < lo_end rdg j t)%R.

(** a total that does not exceed the limit *)
Definition within (n : nat) (l : limit) : Prop :=
  match l with LNone => False | LInf => True | LInt z => (Z.of_nat n <= z)%Z end.

(** ** The loop over instances *)

(** entry number [k] of the four lists is the result of repetition [k mod n] for the instance it is
    recorded for *)
Definition entries_match {S} (n : nat) (P : nat -> nat -> nat * nat * nat -> Prop) (x : lists S) : Prop :=
  forall k i, nth_error (l_history x) k = Some i -> k < length (l_lucb x) ->
    exists a b c, nth_error (l_lucb x) k = Some a /\ nth_error (l_se x) k = Some b /\ nth_error (l_uniform x) k = Some c /\ P i (k mod n) (a, b, c).

(** the three lists of results have the same length *)
Definition same_length {S} (x : lists S) : Prop :=
  length (l_se x) = length (l_lucb x) /\ length (l_uniform x) = length (l_lucb x).

(** every element [n] times *)
Definition each (n : nat) (l : list nat) : list nat := flat_map (fun i => repeat i n) l.

(** ** The minimum working example *)

(** what the four conditional distributions draw for [n] units, in the order of var_names *)
Definition mwe_drawn {G} (w : cpd_world X G) (n : nat) (g : G) (zs : list bool) (z2 : list R) (xs : list bool) (es : list R) (g' : G) : Prop :=
  exists g1 g2 g3,
    cw_binom w (repeat (Fin (1 / 3)) n) g = (Ok (zos zs), g1) /\
    cw_normal w (map (fun z => Fin (1 / 10 * zo z)) zs) (repeat (Fin 1) n) g1 = (Ok (map Fin z2), g2) /\
    cw_binom w (map (fun z => Fin (1 / 2 + 1 / 10 * zo z)) zs) g2 = (Ok (zos xs), g3) /\
    cw_normal w (repeat (Fin 0) n) (repeat (Fin 1) n) g3 = (Ok (map Fin es), g') /\
    length zs = n /\ length z2 = n /\ length xs = n /\ length es = n.

(** the response of unit j *)
Definition mwe_response (z2 : list R) (xs : list bool) (es : list R) (j : nat) : R :=
  (nth j es 0 + 1 / 4 * zo (nth j xs false) + 1 / 4 * nth j z2 0)%R.

(** expectation of a function of (z, z2, x, y) when X is drawn with probability [px z]; [E] and
    [E'] are the noise of Z2 and of Y *)
Definition mwe_mean (E E' : (R -> R) -> R) (px : R -> R) (f : R -> R -> R -> R -> R) : R :=
  bern (1 / 3) (fun z => E (fun e2 => let z2 := (1 / 10 * z + e2)%R in
    bern (px z) (fun x => E' (fun e => f z z2 x (e + 1 / 4 * x + 1 / 4 * z2)%R)))).
Definition mwe_px (z : R) : R := (1 / 2 + 1 / 10 * z)%R.

(** the conditional expectation given an event in z and x, the event being given by its 0/1
    indicator *)
Definition mwe_given (E E' : (R -> R) -> R) (ev : R -> R -> R) (f : R -> R -> R -> R -> R) : R :=
  (mwe_mean E E' mwe_px (fun z z2 x y => ev z x * f z z2 x y) / mwe_mean E E' mwe_px (fun z _ x _ => ev z x))%R.
(** 1 when the numbers agree, else 0 *)
Definition same (a b : R) : R := if Req_EM_T a b then 1%R else 0%R.
Definition mwe_y_of (z z2 x y : R) : R := y.
