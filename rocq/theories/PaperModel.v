(** Model of the example generator of /repo/causal_effect_bandits/paper_utils.py. *)
From Coq Require Import List Arith ZArith Bool String DecimalString.
From Verif Require Import PyBase Num NumOps DataModel ScmModel BanditModel ArmModel ParamModel.
Import ListNotations.
Open Scope nat_scope.
Open Scope string_scope.

(** str(i) for an int i >= 0 (paper_utils.py:120-121, 329-330, 482-489, 523, 526) *)
Definition str (i : nat) : string := NilEmpty.string_of_uint (Nat.to_uint i).

(** range(a, b) for 0 <= a, b (paper_utils.py:506, 512-514) *)
Definition py_range (a b : nat) : list nat := seq a (b - a).

(** l[i] for an int i >= 0 (paper_utils.py:506, 512-514, 520, 522, 525) *)
Definition at_ {X} (l : list X) (i : nat) : res X :=
  match nth_error l i with Some x => Ok x | None => Err IndexError end.

(** ** the graph (paper_utils.py:471-501) *)

(** parents[k].append(x) (paper_utils.py:488-489): the list stored under k *)
Definition dict_append (d : sdict (list string)) (k x : string) : res (sdict (list string)) :=
  do l <- sfind d k; Ok (sset d k (l ++ [x])%list).

(** var_names, cov_variables and parents while they are built (paper_utils.py:471-491) *)
Record graph : Type := mkGraph {
  g_vars : list string; g_cov : list string; g_parents : sdict (list string) }.

(** paper_utils.py:471-477 *)
Definition graph_start : graph :=
  mkGraph [] ["Z0"] [("Z0", ["X"]); ("X", []); ("Y", ["Z0"])].

(** the body of the loop of paper_utils.py:481-489 *)
Definition graph_step (gr : graph) (i : nat) : res graph :=
  let v := "V" ++ str i in
  let z := "Z" ++ str i in
  let p1 := sset (g_parents gr) v [] in
  let p2 := sset p1 z [v] in
  do p3 <- dict_append p2 "Y" z;
  do p4 <- dict_append p3 "X" v;
  Ok (mkGraph (g_vars gr ++ [v; z])%list (g_cov gr ++ [v; z])%list p4).

(** paper_utils.py:481-491: range(1, num_back_door_paths + 1), then the three last names *)
Fixpoint graph_loop (l : list nat) (gr : graph) : res graph :=
  match l with [] => Ok gr | i :: l' => do gr' <- graph_step gr i; graph_loop l' gr' end.
Definition paper_graph (m : nat) : res graph :=
  do gr <- graph_loop (seq 1 m) graph_start;
  Ok (mkGraph (g_vars gr ++ ["X"; "Z0"; "Y"])%list (g_cov gr) (g_parents gr)).

(** scm.SCM('Section 5 SCM', ...) (paper_utils.py:493-501) *)
Definition paper_scm {V G} (m : nat) (cpds : sdict (cpd V G)) : res (scm V G) :=
  do gr <- paper_graph m;
  scm_init "Section 5 SCM" (g_vars gr) (g_parents gr) cpds (g_cov gr) "X" "Y".

(** ** index lists (paper_utils.py:503-514). Simplification: dimensions are ints >= 0. *)

(** np.cumsum (paper_utils.py:508-509) *)
Fixpoint cumsum_from (a : nat) (l : list nat) : list nat :=
  match l with [] => [] | x :: l' => a + x :: cumsum_from (a + x) l' end.
Definition cumsum (l : list nat) : list nat := cumsum_from 0 l.

(** one step of the loop of paper_utils.py:511-514 *)
Definition idx_step (total : nat) (cz cv : list nat) (acc : list (list nat) * list (list nat))
    (i : nat) : res (list (list nat) * list (list nat)) :=
  do za <- at_ cz i; do zb <- at_ cz (i + 1);
  do va <- at_ cv i; do vb <- at_ cv (i + 1);
  Ok (fst acc ++ [py_range za zb], snd acc ++ [py_range (total + va) (total + vb)])%list.

Fixpoint idx_loop (total : nat) (cz cv : list nat) (l : list nat)
    (acc : list (list nat) * list (list nat)) : res (list (list nat) * list (list nat)) :=
  match l with [] => Ok acc | i :: l' => do a <- idx_step total cz cv acc i; idx_loop total cz cv l' a end.

(** z_idx and v_idx (paper_utils.py:505-514) *)
Definition index_lists (zd vd : list nat) (m : nat) : res (list (list nat) * list (list nat)) :=
  do d0 <- at_ zd 0;
  idx_loop (list_sum zd) (cumsum zd) (cumsum vd) (seq 0 m) ([py_range 0 d0], [[]]).

(** ** selection masks (paper_utils.py:518-542) *)

(** A mask (paper_utils.py:520, 522, 525): a Python list of ints, or the array np.r_ makes of two masks. np.r_ gives an empty
    list the dtype float64 and the result the common dtype; an array is [arr_int] when its dtype
    is an integer type. *)
Inductive mask : Type := MList (l : list nat) | MArr (arr_int : bool) (l : list nat).

(** the entries of a mask (paper_utils.py:520, 522, 525) *)
Definition mask_list (k : mask) : list nat := match k with MList l => l | MArr _ l => l end.
(** has it an integer dtype as an operand of np.r_ (paper_utils.py:522, 525) *)
Definition mask_int (k : mask) : bool :=
  match k with MList [] => false | MList _ => true | MArr b _ => b end.
(** np.r_[m, l] for a list l (paper_utils.py:522, 525) *)
Definition mask_cat (k : mask) (l : list nat) : mask :=
  MArr (mask_int k && mask_int (MList l)) (mask_list k ++ l).

Section Selection.
  Context {N : Type} (o : numops N).

  (** generate_selection_masks(n, z_cost, v_cost) (paper_utils.py:518-532). For n <= 0 the
      recursion never meets its base case: RecursionError. *)
  Fixpoint selection_masks (zi vi : list (list nat)) (zc vc : N) (n : nat)
    : res (list mask * list string * list N) :=
    match n with
    | 0 => Err RecursionError
    | 1 => do z <- at_ zi 1; do v <- at_ vi 1;
           Ok ([MList z; MList v], ["Z_1"; "V_1"], [zc; vc])
    | S n' =>
        do r <- selection_masks zi vi zc vc n';
        let '(ms, ns, cs) := r in
        do mz <- mapM (fun k => do z <- at_ zi n; Ok (mask_cat k z)) ms;
        let nz := map (fun s => s ++ "Z_" ++ str n) ns in
        let cz := map (nadd o zc) cs in
        do mv <- mapM (fun k => do v <- at_ vi n; Ok (mask_cat k v)) ms;
        let nv := map (fun s => s ++ "V_" ++ str n) ns in
        let cv := map (nadd o vc) cs in
        Ok (mz ++ mv, nz ++ nv, cz ++ cv)%list
    end.

  (** data.get_coordinate_mask_fn(mask) (paper_utils.py:516, 539): an array of floats is no
      index (IndexError) *)
  Definition select_fn {V} (k : mask) (d : expdata V) : res (expdata V) :=
    match k with
    | MArr false _ => match dcov d with None => Err TypeError | Some _ => Err IndexError end
    | _ => mask_fn (map Z.of_nat (mask_list k)) d
    end.

  (** ** arms (paper_utils.py:551-587). The eta argument: FrontDoorLinearFiniteZ or
      AIPWLinearLogistic, with their configurations. *)
  Inductive eta_conf : Type := FrontDoor (c : fd_conf N) | Aipw (c : aipw_conf N).

  (** the arguments of one SampleSplittingArm (paper_utils.py:556-570, 576-586) *)
  Record arm_conf : Type := mkAConf {
    pa_name : string; pa_eta : eta_conf; pa_mask : mask; pa_cost : N; pa_opts : ss_opts N }.

  (** the keyword arguments common to all arms (paper_utils.py:564-569, 581-586); the others
      have their defaults (arms.py:171, 173: stable_splits, eta_sub_gscale) *)
  Definition paper_opts (alg : ci_algorithm) (subg : N) : ss_opts N :=
    mkSS alg true subg (nint o 1) (nint o 2) (nint o 1000) (nint o 1).

  (** the front-door arm (paper_utils.py:555-571); min_ratio_to_uniform is 10 by default
      (parameters.py:569) *)
  Definition frontdoor_arm (alg : ci_algorithm) (subg z0c : N) (d0 : nat) (z0 : list nat) : arm_conf :=
    mkAConf "frontdoor" (FrontDoor (mkFC d0 5 (nlit o 1 4) (nint o 10))) (MList z0) z0c
      (paper_opts alg subg).

  (** a back-door arm (paper_utils.py:574-587) *)
  Definition backdoor_arm (alg : ci_algorithm) (subg : N) (k : mask) (name : string) (cost : N) : arm_conf :=
    mkAConf name (Aipw (mkAC (List.length (mask_list k)) 5 (nlit o 1 4))) k cost (paper_opts alg subg).

  (** zip(selection_fns, names, costs, dims) (paper_utils.py:574) *)
  Fixpoint backdoor_arms (alg : ci_algorithm) (subg : N) (ms : list mask) (ns : list string)
      (cs : list N) : list arm_conf :=
    match ms, ns, cs with
    | k :: ms', n :: ns', c :: cs' =>
        backdoor_arm alg subg k n c :: backdoor_arms alg subg ms' ns' cs'
    | _, _, _ => []
    end.

  (** np.var of an array with any number of axes: over all entries (paper_utils.py:552) *)
  Definition np_var (a : option (arr N)) : res N :=
    match a with Some a => Ok (nvar o (List.concat (arows a))) | None => Err TypeError end.

  (** what generate_example_from_cpd returns (paper_utils.py:612-618): the SCM, the arms and the
      configurations of the three bandit algorithms *)
  Record example (G : Type) : Type := mkExample {
    e_scm : scm N G; e_arms : list arm_conf; e_lucb : config; e_se : config; e_uniform : config }.

  (** generate_example_from_cpd (paper_utils.py:435-618). [big]: the number of samples drawn for
      sub_gscale, 1000 (line 551). *)
  Definition generate_example {G} (big : nat) (zd vd : list nat) (zc vc z0c : N) (m : nat)
      (cpds : sdict (cpd N G)) (limit : Z) (units : nat) (latex : bool) (alg : ci_algorithm) (g : G)
    : res (example G) * G :=
    match (do s <- paper_scm m cpds;
           do iv <- index_lists zd vd m;
           do d0 <- at_ zd 0;
           do r <- selection_masks (fst iv) (snd iv) zc vc m;
           Ok (s, iv, d0, r)) with
    | Err e => (Err e, g)
    | Ok (s, iv, d0, (ms, ns, cs)) =>
        let names := if latex then map (fun n => "$" ++ n ++ "$") ns else ns in
        match generate s big g with
        | (Err e, g1) => (Err e, g1)
        | (Ok d, g1) =>
            (do ve <- np_var (dexp d); do vx <- np_var (dcov d); do vy <- np_var (drsp d);
             let subg := nadd o (nadd o ve vx) vy in
             do z0 <- at_ (fst iv) 0;
             let arms := frontdoor_arm alg subg z0c d0 z0 :: backdoor_arms alg subg ms names cs in
             do lucb <- bandit_init (flit 5 100) f0 None (LInt limit) units;
             do se <- bandit_init (flit 5 100) f0 None (LInt limit) units;
             do uni <- bandit_init (flit 5 100) f0 (Some (flit 5 100)) (LInt limit) units;
             Ok (mkExample G s arms lucb se uni), g1)
        end
    end.
End Selection.
Arguments mkAConf {N} pa_name pa_eta pa_mask pa_cost pa_opts.
Arguments pa_name {N} a.
Arguments pa_eta {N} a.
Arguments pa_mask {N} a.
Arguments pa_cost {N} a.
Arguments pa_opts {N} a.
Arguments FrontDoor {N} c.
Arguments Aipw {N} c.
Arguments e_scm {N G} e.
Arguments e_arms {N G} e.
Arguments e_lucb {N G} e.
Arguments e_se {N G} e.
Arguments e_uniform {N G} e.

(** ** choosing the distributions of Z0 (paper_utils.py:127-144 and 220-237) *)
Section Tau.
  Context {N G : Type} (o : numops N).

  (** a.dot(b) of two vectors of equal length (paper_utils.py:137-138, 143-144).
      Simplification: the sum is taken left to right. *)
  Definition vdot (a b : list N) : N := nsum o (map2 (nmul o) a b).

  (** p.dot(support) (paper_utils.py:137-138): the vector of the columns' dot products; [k] columns *)
  Definition vmdot (k : nat) (p : list N) (support : list (list N)) : list N :=
    map (fun j => vdot p (col o j support)) (seq 0 k).

  (** p1.dot(support).dot(beta0) - p0.dot(support).dot(beta0) (paper_utils.py:137-138) *)
  Definition z0_effect (support : list (list N)) (beta0 : list N) (p : list N * list N) : N :=
    nsub o (vdot (vmdot (List.length beta0) (snd p) support) beta0)
           (vdot (vmdot (List.length beta0) (fst p) support) beta0).

  (** [draw]: the pair (p_z0x0, p_z0x1) of paper_utils.py:133-134 and 141-142 *)
  Context {D : Type} (draw : G -> D * G) (effect : D -> N).

  (** the ten rounds (paper_utils.py:131-138): tau is 0 throughout, so the threshold is overwritten *)
  Fixpoint tau_rounds (k : nat) (cur : option D) (tau_max : N) (g : G) : option D * N * G :=
    match k with
    | 0 => (cur, tau_max, g)
    | S k' =>
        let '(d, g1) := draw g in
        tau_rounds k' (Some d) (nmax o (nint o 0) (effect d)) g1
    end.

  (** the while loop (paper_utils.py:139-144), at most [fuel] draws *)
  Fixpoint tau_while (fuel : nat) (cur : option D) (tau tau_max : N) (g : G)
    : outcome (option D * G) (option D) :=
    match fuel with
    | 0 => if nltb o tau tau_max then OutOfFuel (cur, g) else Returned cur (cur, g)
    | S f =>
        if nltb o tau tau_max then
          let '(d, g1) := draw g in tau_while f (Some d) (effect d) tau_max g1
        else Returned cur (cur, g)
    end.

  (** paper_utils.py:127-144 *)
  Definition tau_selection (fuel : nat) (g : G) : outcome (option D * G) (option D) :=
    let '(cur, tau_max, g1) := tau_rounds 10 None (nint o 0) g in
    tau_while fuel cur (nint o 0) tau_max g1.
End Tau.
