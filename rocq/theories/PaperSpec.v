(** Vocabulary for the statements about paper_utils.py: the causal graph of Section 5, the
    columns, names and costs that belong to an adjustment set, the layout of generated
    covariates, the first acceptable draw. *)
From Coq Require Import List Arith ZArith Bool String DecimalString.
From Verif Require Import PyBase DataModel ScmModel ScmSpec.
Import ListNotations.
Open Scope nat_scope.
Open Scope string_scope.

(** a number in decimal *)
Definition decimal (i : nat) : string := NilEmpty.string_of_uint (Nat.to_uint i).
(** the variables on the i-th back-door path *)
Definition Vn (i : nat) : string := "V" ++ decimal i.
Definition Zn (i : nat) : string := "Z" ++ decimal i.

(** the edges of the graph of Section 5 with m back-door paths X <- V_i -> Z_i -> Y and the
    front-door path X -> Z0 -> Y *)
Inductive edge (m : nat) : string -> string -> Prop :=
| edge_front1 : edge m "X" "Z0"
| edge_front2 : edge m "Z0" "Y"
| edge_VX i : 1 <= i <= m -> edge m (Vn i) "X"
| edge_VZ i : 1 <= i <= m -> edge m (Vn i) (Zn i)
| edge_ZY i : 1 <= i <= m -> edge m (Zn i) "Y".

(** its variables *)
Inductive paper_var (m : nat) : string -> Prop :=
| pv_X : paper_var m "X"
| pv_Y : paper_var m "Y"
| pv_Z0 : paper_var m "Z0"
| pv_V i : 1 <= i <= m -> paper_var m (Vn i)
| pv_Z i : 1 <= i <= m -> paper_var m (Zn i).

(** ** adjustment sets: arm number k observes V_i on path i if bit i-1 of k is set, else Z_i *)
Definition observes_v (k i : nat) : bool := Nat.testbit k (i - 1).

(** the columns of Z_i and V_i in the order Z0, Z1, ..., ZM, V1, ..., VM *)
Definition z_block (zd : list nat) (i : nat) : list nat :=
  seq (list_sum (firstn i zd)) (nth i zd 0).
Definition v_block (zd vd : list nat) (i : nat) : list nat :=
  seq (list_sum zd + list_sum (firstn i vd)) (nth i vd 0).

(** mask, name and cost of arm number k *)
Definition arm_columns (zd vd : list nat) (m k : nat) : list nat :=
  flat_map (fun i => if observes_v k i then v_block zd vd i else z_block zd i) (seq 1 m).
Definition arm_dim (zd vd : list nat) (m k : nat) : nat :=
  list_sum (map (fun i => if observes_v k i then nth i vd 0 else nth i zd 0) (seq 1 m)).
Definition arm_name (m k : nat) : string :=
  String.concat "" (map (fun i => (if observes_v k i then "V_" else "Z_") ++ decimal i) (seq 1 m)).
Definition arm_cost {N} (add : N -> N -> N) (zc vc : N) (m k : nat) : N :=
  let c i := if observes_v k i then vc else zc in
  fold_left (fun acc i => add (c i) acc) (seq 2 (m - 1)) (c 1).

(** ** the order in which SCM.generate puts the covariates: Z0, V1, Z1, V2, Z2, ... *)
Definition layout (m : nat) : list string :=
  "Z0" :: flat_map (fun i => [Vn i; Zn i]) (seq 1 m).

(** an array of shape (n, k) *)
Definition shaped {V} (k : nat) (a : arr V) : Prop :=
  atail a = [k] /\ Forall (fun r => List.length r = k) (arows a).

(** the sample of every covariate has its declared number of columns *)
Definition has_dims {V} (zd vd : list nat) (m : nat) (sample : string -> arr V -> Prop) : Prop :=
  (forall a, sample "Z0" a -> shaped (nth 0 zd 0) a) /\
  (forall i a, 1 <= i <= m -> sample (Zn i) a -> shaped (nth i zd 0) a) /\
  (forall i a, 1 <= i <= m -> sample (Vn i) a -> shaped (nth i vd 0) a).

(** one dimension d for all V_i and Z_i; the placeholder for V_0 is 0 *)
Definition equal_dims (zd vd : list nat) (m d : nat) : Prop :=
  List.length zd = S m /\ List.length vd = S m /\ nth 0 vd 0 = 0 /\
  forall i, 1 <= i <= m -> nth i zd 0 = d /\ nth i vd 0 = d.

(** the b-th variable of the layout after Z0, counted from 0 *)
Definition block_var (b : nat) : string :=
  if Nat.even b then Vn (b / 2 + 1) else Zn (b / 2 + 1).

(** with equal dimensions: the variable that the mask of arm k reads for path i *)
Definition read_var (m k i : nat) : string :=
  block_var (if observes_v k i then m + i - 1 else i - 1).

(** row r of an array *)
Definition row {V} (a : arr V) (r : nat) : list V := nth r (arows a) [].
(** ** draws *)
(** the state of the generator after n draws, and draw number n, counted from 0 *)
Fixpoint state_after {D G} (draw : G -> D * G) (g : G) (n : nat) : G :=
  match n with 0 => g | S n' => snd (draw (state_after draw g n')) end.
Definition nth_draw {D G} (draw : G -> D * G) (g : G) (n : nat) : D := fst (draw (state_after draw g n)).

(** j is the first index with an acceptable value *)
Definition first_at {D} (ok : D -> bool) (draws : nat -> D) (j : nat) : Prop :=
  ok (draws j) = true /\ forall i, i < j -> ok (draws i) = false.
