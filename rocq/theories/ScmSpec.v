(** Vocabulary for the statements about scm.py, independent of the functions of the model:
    dict entries, topological orders, descendants, logs of CPD calls, arrays side by side. *)
From Coq Require Import List Arith ZArith Bool String Relations.
From Verif Require Import PyBase DataModel ScmModel.
Import ListNotations.
Open Scope nat_scope.

(** the entry of key [k] in a dict *)
Definition entry {A} (d : sdict A) (k : string) (x : A) : Prop :=
  exists pre post, d = pre ++ (k, x) :: post /\ ~ In k (map fst pre).

Section Spec.
  Context {V G : Type}.
  Implicit Types s : scm V G.

  (** the graph description is complete: what the constructor is documented to require *)
  Definition complete_graph (vars : list string) (parents : sdict (list string))
      (cpds : sdict (cpd V G)) (cov : list string) (trt rsp : string) : Prop :=
    (forall v, In v vars -> (exists ps, entry parents v ps) /\ (exists f, entry cpds v f)) /\
    In trt vars /\ In rsp vars /\ incl cov vars.

  (** an SCM object that the constructor returned *)
  Definition constructed s : Prop :=
    scm_init (s_name s) (s_vars s) (s_parents s) (s_cpds s) (s_cov s) (s_trt s) (s_rsp s) = Ok s.

  (** p is a declared parent of v *)
  Definition parent s (p v : string) : Prop := exists ps, entry (s_parents s) v ps /\ In p ps.

  (** every variable comes after its parents *)
  Definition topological s : Prop :=
    forall pre v post p, s_vars s = pre ++ v :: post -> parent s p v -> In p pre.

  (** reachable from v along edges from parent to child; v itself included *)
  Definition descendant s (v u : string) : Prop := clos_refl_trans _ (parent s) v u.

  (** CPDs that never raise and return n samples of numbers or vectors *)
  Definition well_behaved (n : nat) (f : cpd V G) : Prop :=
    forall args g, exists a g', f n args g = (Ok a, g') /\ List.length (arows a) = n /\
                                List.length (atail a) <= 1.

  (** the values do not depend on the random state *)
  Definition functional (f : cpd V G) : Prop :=
    forall n args g g', fst (f n args g) = fst (f n args g').

  (** s' is s with the CPD of v replaced by f *)
  Definition replaces s (v : string) (f : cpd V G) (s' : scm V G) : Prop :=
    s_vars s' = s_vars s /\ s_parents s' = s_parents s /\ s_cov s' = s_cov s /\
    s_trt s' = s_trt s /\ s_rsp s' = s_rsp s /\ entry (s_cpds s') v f /\
    forall u h, u <> v -> (entry (s_cpds s') u h <-> entry (s_cpds s) u h).

  (** one call of a CPD *)
  Record call : Type := mkCall {
    c_var : string; c_n : nat; c_args : list (arr V); c_out : res (arr V) }.

  (** the same CPD, recording its calls next to the random state *)
  Definition logged (v : string) (f : cpd V G) : cpd V (G * list call) :=
    fun n args st =>
      let '(r, g) := f n args (fst st) in (r, (g, snd st ++ [mkCall v n args r])).

  (** the same SCM with all CPDs recording *)
  Definition logging s : scm V (G * list call) :=
    mkScm (s_name s) (s_vars s) (s_parents s)
      (map (fun vf => (fst vf, logged (fst vf) (snd vf))) (s_cpds s))
      (s_cov s) (s_trt s) (s_rsp s).

  (** a is the most recent sample of v in the log *)
  Definition latest (log : list call) (v : string) (a : arr V) : Prop :=
    exists pre c post, log = pre ++ c :: post /\ c_var c = v /\ c_out c = Ok a /\
                       ~ In v (map c_var post).

  (** every call got n and the most recent samples of the declared parents, in that order *)
  Definition calls_follow_graph s (n : nat) (log : list call) : Prop :=
    forall pre c post, log = pre ++ c :: post ->
      c_n c = n /\
      exists ps, entry (s_parents s) (c_var c) ps /\ Forall2 (latest pre) ps (c_args c).

  (** number of columns of a sample: a 1-d array is one column *)
  Definition width (a : arr V) : nat := match atail a with [] => 1 | f :: _ => f end.

  (** x is made of the columns of the arrays cs, left to right *)
  Definition side_by_side (cs : list (arr V)) (x : arr V) : Prop :=
    cs <> [] /\
    (exists t, atail x = list_sum (map width cs) :: t /\
               forall c, In c cs -> tl (atail c) = t) /\
    (forall c, In c cs -> List.length (arows c) = List.length (arows x)) /\
    forall i, i < List.length (arows x) ->
      nth i (arows x) [] = List.concat (map (fun c => nth i (arows c) []) cs).
End Spec.
Arguments call V : clear implicits.
Arguments mkCall {V} c_var c_n c_args c_out.
Arguments c_var {V} c.
Arguments c_n {V} c.
Arguments c_args {V} c.
Arguments c_out {V} c.

(** position k of a Python list of the given length: k itself, or counted from the end *)
Definition position (len : nat) (k : Z) (j : nat) : Prop :=
  j < len /\ (k = Z.of_nat j \/ k = (Z.of_nat j - Z.of_nat len)%Z).

Section CondSpec.
  Context {V G : Type}.

  (** one unit of categorical_conditioning: unit i, with conditioning value d, draws item x and
      moves the random state from g to g' *)
  Definition unit_draw (to_int : V -> res Z) (parents : list (arr V)) (dists : list (dist V G))
      (i : nat) (d : list V) (x : item V) (g g' : G) : Prop :=
    exists v k j f draw,
      d = [v] /\ to_int v = Ok k /\ position (List.length dists) k j /\
      nth_error dists j = Some f /\
      (forall p, In p parents -> i < List.length (arows p)) /\
      f 1 (map (fun p => mkItem (atail p) (nth i (arows p) [])) parents) g = (Ok draw, g') /\
      exists r rs, arows draw = r :: rs /\ x = mkItem (atail draw) r.

  (** a whole run over the units 0..n-1: the random states g_0 .. g_n *)
  Definition units_draw (to_int : V -> res Z) (parents : list (arr V)) (dists : list (dist V G))
      (ds : list (list V)) (xs : list (item V)) (g g' : G) : Prop :=
    exists gs, List.length gs = S (List.length ds) /\ List.length xs = List.length ds /\
      nth_error gs 0 = Some g /\ nth_error gs (List.length ds) = Some g' /\
      forall i d x g1 g2, nth_error ds i = Some d -> nth_error xs i = Some x ->
        nth_error gs i = Some g1 -> nth_error gs (S i) = Some g2 ->
        unit_draw to_int parents dists i d x g1 g2.
End CondSpec.
