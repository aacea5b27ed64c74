(** Vocabulary for the law of generated data: laws with finitely many outcomes, fresh randomness
    for every CPD call, conditional means, adjustment for covariates. *)
From Coq Require Import List Arith ZArith Bool String Reals.
From Verif Require Import PyBase DataModel ScmModel ScmSpec PaperModel PaperSpec.
Import ListNotations.
Open Scope nat_scope.

(** ** laws with finitely many outcomes: outcomes with their weights *)
Definition law (A : Type) : Type := list (A * R).

(** the mean of [f] *)
Fixpoint mean {A} (d : law A) (f : A -> R) : R :=
  match d with [] => 0%R | (a, p) :: d' => (p * f a + mean d' f)%R end.

Definition is_law {A} (d : law A) : Prop :=
  (forall a p, In (a, p) d -> (0 <= p)%R) /\ mean d (fun _ => 1%R) = 1%R.

(** the probability of an event *)
Definition prob {A} (d : law A) (b : A -> bool) : R := mean d (fun a => if b a then 1%R else 0%R).

(** the mean of [f] given an event *)
Definition mean_given {A} (d : law A) (b : A -> bool) (f : A -> R) : R :=
  (mean d (fun a => if b a then f a else 0) / prob d b)%R.

Definition product (l : list R) : R := fold_right Rmult 1%R l.

(** [k] independent draws *)
Fixpoint tapes {W} (seeds : law W) (k : nat) : law (list W) :=
  match k with
  | 0 => [([], 1%R)]
  | S k' => flat_map (fun wp => map (fun tq => (fst wp :: fst tq, (snd wp * snd tq)%R)) (tapes seeds k')) seeds
  end.

(** the CPD [f] draws [n] units from the law [K args]: it takes one value from the tape and returns a
    function of it and of the parents' samples, or it returns a fixed array and takes none *)
Definition draws {W V} (seeds : law W) (n : nat) (f : cpd V (list W)) (K : list (arr V) -> law (arr V)) : Prop :=
  (exists phi, (forall args w g, f n args (w :: g) = (Ok (phi args w), g)) /\
     forall args, K args = map (fun wp => (phi args (fst wp), snd wp)) seeds) \/
  (exists a, (forall args g, f n args g = (Ok a, g)) /\ forall args, K args = [(a, 1%R)]).

(** the sample of variable [v] in a run of SCM.generate, from the record of the calls *)
Definition drawn {V G} (s : scm V G) (n : nat) (g : G) (v : string) : option (arr V) :=
  let log := snd (snd (generate (logging s) n (g, []))) in
  match find (fun c => String.eqb (c_var c) v) (rev log) with
  | Some c => match c_out c with Ok a => Some a | Err _ => None end
  | None => None
  end.

(** [b] decides equality *)
Definition decides {A} (b : A -> A -> bool) : Prop := forall x y, b x y = true <-> x = y.

(** equality of samples *)
Definition same {V} (eqb : arr V -> arr V -> bool) (x y : option (arr V)) : bool :=
  match x, y with Some a, Some b => eqb a b | None, None => true | _, _ => false end.

(** ** adjustment: the mean of E[Y | treated, covariates] over the law of the covariates;
    [agree o o']: the outcomes [o] and [o'] have the same covariates *)
Definition adjusted {A} (d : law A) (treated : A -> bool) (agree : A -> A -> bool) (Y : A -> R) : R :=
  mean d (fun o => mean_given d (fun o' => treated o' && agree o o') Y).

(** wherever there are covariates there are treated units *)
Definition overlap {A} (d : law A) (treated : A -> bool) (agree : A -> A -> bool) : Prop :=
  forall o p, In (o, p) d -> (0 < p)%R -> (0 < prob d (fun o' => treated o' && agree o o'))%R.

(** the names contain V_i or Z_i for every path i, and nothing else *)
Definition on_paths (m : nat) (names : list string) : Prop :=
  forall v, In v names -> exists i, 1 <= i <= m /\ (v = Vn i \/ v = Zn i).
Definition blocks (m : nat) (names : list string) : Prop :=
  forall i, 1 <= i <= m -> In (Vn i) names \/ In (Zn i) names.

(** the front-door formula: the mean over the mediator given the treatment of the mean over the law
    of the treatment of E[Y | treatment, mediator] *)
Definition front_door {A} (d : law A) (treated : A -> bool) (same_x same_z : A -> A -> bool) (Y : A -> R) : R :=
  mean_given d treated (fun o => mean d (fun o' => mean_given d (fun o'' => same_x o' o'' && same_z o o'') Y)).

(** the treatment occurs, and every value of the mediator under it occurs with every treatment *)
Definition front_overlap {A} (d : law A) (treated : A -> bool) (same_x same_z : A -> A -> bool) : Prop :=
  (0 < prob d treated)%R /\
  forall o p o' p', In (o, p) d -> (0 < p)%R -> treated o = true -> In (o', p') d -> (0 < p')%R ->
    (0 < prob d (fun o'' => same_x o' o'' && same_z o o''))%R.

(** ** what an arm gets: the covariates of a generated dataset after its mask *)
Definition seen {V G} (s : scm V G) (n : nat) (k : mask) (g : G) : option (arr V) :=
  match fst (generate s n g) with
  | Ok d => match select_fn k d with Ok r => dcov r | Err _ => None end
  | Err _ => None
  end.

(** every run draws arrays with [n] rows and the declared numbers of columns *)
Definition regular {W V} (T : law (list W)) (s : scm V (list W)) (n m : nat) (zd vd : list nat) : Prop :=
  forall g p, In (g, p) T ->
    has_dims zd vd m (fun v b => drawn s n g v = Some b) /\
    forall v b, paper_var m v -> drawn s n g v = Some b -> List.length (arows b) = n.

(** the columns of the generated covariates, in order: the variable and its column *)
Open Scope list_scope.
Definition labels (zd vd : list nat) (m : nat) : list (string * nat) :=
  map (pair "Z0"%string) (seq 0 (nth 0 zd 0)) ++
  flat_map (fun i => map (pair (Vn i)) (seq 0 (nth i vd 0)) ++ map (pair (Zn i)) (seq 0 (nth i zd 0))) (seq 1 m).

(** with the column indices [cols] one gets column [c] of variable [v] *)
Definition gets (zd vd : list nat) (m : nat) (cols : list nat) (v : string) (c : nat) : Prop :=
  exists p, In p cols /\ nth_error (labels zd vd m) p = Some (v, c).

(** for every path one gets all columns of V_i or all columns of Z_i *)
Definition covers (zd vd : list nat) (m : nat) (cols : list nat) : Prop :=
  forall i, 1 <= i <= m ->
    (forall c, c < nth i vd 0 -> gets zd vd m cols (Vn i) c) \/ (forall c, c < nth i zd 0 -> gets zd vd m cols (Zn i) c).

(** one dimension for every variable, none of them 0 except the placeholder for V_0 *)
Definition dims_fit (zd vd : list nat) (m : nat) : Prop :=
  1 <= m /\ List.length zd = S m /\ List.length vd = S m /\ nth 0 vd 0 = 0 /\
  forall i, 1 <= i <= m -> 0 < nth i zd 0 /\ 0 < nth i vd 0.
