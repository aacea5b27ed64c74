(** Model of /repo/causal_effect_bandits/bandits.py: the constructor checks and the three
    best-arm-identification algorithms. All numbers are bit-exact binary64 ([F]); sample
    counts are naturals.

    Simplifications, valid for the whole file:
    - the arms of a bandit are distinct objects, identified by their position in the list;
    - the warning printed by select_arms (bandits.py:395-397) is omitted;
    - the tests "error_prob is None" (bandits.py:153, 259, 373) are omitted: the constructor
      rejects None (0.0 < None raises TypeError). *)
From Coq Require Import List Arith ZArith Bool.
From Verif Require Import PyBase Num.
Import ListNotations.

(** What the algorithms use of an arm (arms.py:64-165): [A] the arm's state, [D] the type of
    datasets, [G] the global numpy random state. [a_ci]/[a_var] are None before the first
    update. [a_update] may raise; the new arm and random state are returned in any case. *)
Record arm_ops (A D G : Type) : Type := mkArmOps {
  a_cost : A -> F;
  a_ci : A -> option F * option F;
  a_var : A -> option F;
  a_units : A -> nat;
  a_update : A -> D -> F -> G -> (A * G) * option exn;
  a_reset : A -> A }.
Arguments a_cost {A D G} a.
Arguments a_ci {A D G} a.
Arguments a_var {A D G} a.
Arguments a_units {A D G} a.
Arguments a_update {A D G} a.
Arguments a_reset {A D G} a.

(** The rest of the world (bandits.py:233-239, 352-356, 390-410): prob_model.generate, all_data[a:b], np.random.choice of one
    element, and np.random.choice of two distinct positions below n. *)
Record world (D G : Type) : Type := mkWorld {
  w_generate : G -> nat -> res D * G;        (* bandits.py:238, 322, 354, 498 *)
  w_slice : D -> nat -> nat -> res D;        (* bandits.py:236, 320, 357, 501 *)
  w_choice : G -> list nat -> nat * G;       (* bandits.py:411-412 *)
  w_choice2 : G -> nat -> (nat * nat) * G }. (* bandits.py:392, 398 *)
Arguments w_generate {D G} w.
Arguments w_slice {D G} w.
Arguments w_choice {D G} w.
Arguments w_choice2 {D G} w.

(** The sample_limit argument (bandits.py:110, 278, 435): None, infinity or an integer. A
    finite float limit x is represented by floor(x), which compares the same with integers. *)
Inductive limit : Type := LNone | LInf | LInt (z : Z).

(** Attributes set by BAIBanditAlgorithm.__init__ (bandits.py:113-133), except the arms. *)
Record config : Type := mkConfig {
  c_error_prob : F; c_error_tol : F; c_confidence : option F; c_limit : limit; c_units : nat }.

(** BAIBanditAlgorithm.__init__ (bandits.py:103-133) *)
Definition bandit_init (error_prob error_tol : F) (confidence : option F) (lim : limit)
  (units : nat) : res config :=
  if negb (fltb f0 error_prob && fltb error_prob (f_of_Z 1)) then Err ValueError
  else if fltb error_tol f0 then Err ValueError
  else
    do _ <- match confidence with
            | None => match lim with
                      | LNone => Err TypeError          (* np.isinf(None) *)
                      | LInf => Err ValueError
                      | LInt _ => Ok tt
                      end
            | Some c => if fltb f0 c && fltb c (f_of_Z 1) then Ok tt else Err ValueError
            end;
    Ok (mkConfig error_prob error_tol confidence lim units).

(** LUCBAlgorithm(arms, model) and SuccessiveEliminationAlgorithm(arms, model) with default
    arguments (bandits.py:271-282, 428-439) *)
Definition lucb_default_init : res config := bandit_init (flit 5 100) f0 None LNone 200.
Definition se_default_init : res config := bandit_init (flit 5 100) f0 None LNone 200.
(** UniformAlgorithm(arms, model) with default arguments (bandits.py:103-112) *)
Definition uniform_default_init : res config :=
  bandit_init (flit 5 100) f0 (Some (flit 5 100)) LInf 10.

(** total_samples > self.sample_limit (bandits.py:251, 343, 489) *)
Definition over_limit (total : nat) (l : limit) : res bool :=
  match l with
  | LNone => Err TypeError
  | LInf => Ok false
  | LInt z => Ok (z <? Z.of_nat total)%Z
  end.

(** one reading of an arm (bandits.py:243-245): cost*lcb, cost*ucb, cost*var_est *)
Record reading : Type := mkReading { r_lcb : F; r_ucb : F; r_var : F }.

Section Bandit.
  Context {A D G : Type} (ops : arm_ops A D G) (w : world D G) (cfg : config).

  (** arm.cost * x, TypeError when x is None (bandits.py:191-193, 243-245) *)
  Definition scaled (a : A) (x : option F) : res F :=
    match x with None => Err TypeError | Some v => Ok (fmul (a_cost ops a) v) end.

  (** the three values recorded for an arm (bandits.py:243-245, 335-337, 362-364, 509-511) *)
  Definition read (a : A) : res reading :=
    do l <- scaled a (fst (a_ci ops a));
    do u <- scaled a (snd (a_ci ops a));
    do v <- scaled a (a_var ops a);
    Ok (mkReading l u v).

  (** collect_bounds (bandits.py:185-194). All failures are TypeError, so the order in which
      the three arrays are built does not matter. *)
  Definition collect (arms : list A) : res (list reading) := mapM read arms.

  (** [v == min(var_ests) for v in var_ests] followed by _select_arms_with_mask
      (bandits.py:173-183, 254-255, 346-347, 492-493): positions of the selected arms *)
  Definition argmin_arms (vs : list F) : res (list nat) :=
    match vs with
    | [] => Ok []
    | _ => do m <- py_min fltb vs;
           Ok (select (map (fun v => feqb v m) vs) (seq 0 (length vs)))
    end.

  (** the elements of a list except position i (bandits.py:167-169) *)
  Definition without {X} (i : nat) (l : list X) : list X := firstn i l ++ skipn (S i) l.

  (** _check_fixed_conf_end_condition (bandits.py:140-171) on the collected bounds *)
  Definition check_end (rs : list reading) : res (bool * list nat) :=
    let lcbs := map r_lcb rs in
    let ucbs := map r_ucb rs in
    let vars := map r_var rs in
    if existsb fisinf ucbs then Ok (false, [])
    else
      do m <- py_min fltb vars;
      if fisnan m then Ok (false, [])
      else
        do i <- np_argmin vars;
        do lo <- py_min fltb (without i lcbs);
        Ok (fltb (nth i ucbs fnan) (fsub lo (c_error_tol cfg)), [i]).

  (** the confidence parameter handed to every update: self.error_prob / len(self._arms)
      (bandits.py:242, 334, 358, 502) *)
  Definition delta_of (arms : list A) : F := fdiv (c_error_prob cfg) (f_of_nat (length arms)).

  (** local state of run(): arms, random state, histories per arm (oldest entry first),
      cum_samples, total_samples, and for successive elimination the candidate positions
      (bandits.py:224-230, 325-332, 477-486) *)
  Record bstate : Type := mkB {
    b_arms : list A; b_g : G;
    b_hist : list (list reading);
    b_smp : list (list nat);
    b_cum : list nat;
    b_total : nat;
    b_cand : list nat }.

  (** appending one entry to every per-arm history (bandits.py:243-246) *)
  Definition push {X} (h : list (list X)) (xs : list X) : list (list X) :=
    map2 (fun l x => l ++ [x]) h xs.

  (** state before the loop (bandits.py:224-230): empty histories, all arms candidates *)
  Definition binit (arms : list A) (g : G) : bstate :=
    mkB arms g (map (fun _ => []) arms) (map (fun _ => []) arms) [] 0 (seq 0 (length arms)).

  Definition set_arms (s : bstate) (arms : list A) (g : G) : bstate :=
    mkB arms g (b_hist s) (b_smp s) (b_cum s) (b_total s) (b_cand s).

  (** all_data[n:n+units] or prob_model.generate(units) (bandits.py:233-239) *)
  Definition get_data (all_data : option D) (start : nat) (g : G) : res D * G :=
    match all_data with
    | Some d => (w_slice w d start (start + c_units cfg), g)
    | None => w_generate w g (c_units cfg)
    end.

  (** "for arm in self._arms: arm.update(new_samples, delta); record" (bandits.py:241-246,
      333-338): every arm gets the same data *)
  Fixpoint pull_all (d : D) (delta : F) (arms : list A) (g : G)
    : (list A * G) * res (list reading) :=
    match arms with
    | [] => (([], g), Ok [])
    | a :: rest =>
        match a_update ops a d delta g with
        | ((a', g'), Some e) => ((a' :: rest, g'), Err e)
        | ((a', g'), None) =>
            match read a' with
            | Err e => ((a' :: rest, g'), Err e)
            | Ok r =>
                match pull_all d delta rest g' with
                | ((rest', g''), Err e) => ((a' :: rest', g''), Err e)
                | ((rest', g''), Ok rs) => ((a' :: rest', g''), Ok (r :: rs))
                end
            end
        end
    end.

  (** "for arm in arms_to_update / candidate_arms: get data; arm.update(...)"
      (bandits.py:352-358, 496-502): arms given by position, each gets its own data *)
  Fixpoint pull_list (all_data : option D) (delta : F) (is : list nat) (arms : list A) (g : G)
    : (list A * G) * option exn :=
    match is with
    | [] => ((arms, g), None)
    | i :: is' =>
        match nth_error arms i with
        | None => ((arms, g), Some IndexError)
        | Some a =>
            match get_data all_data (a_units ops a) g with
            | (Err e, g1) => ((arms, g1), Some e)
            | (Ok d, g1) =>
                match a_update ops a d delta g1 with
                | ((a', g2), Some e) => ((modify i (fun _ => a') arms, g2), Some e)
                | ((a', g2), None) => pull_list all_data delta is' (modify i (fun _ => a') arms) g2
                end
            end
        end
    end.

  (** recording one round (bandits.py:243-249): readings, samples per arm, cumulative total *)
  Definition record_round (s : bstate) (rs : list reading) (smp : list nat) (total : nat) : bstate :=
    mkB (b_arms s) (b_g s) (push (b_hist s) rs) (push (b_smp s) smp) (b_cum s ++ [total]) total (b_cand s).

  (** UniformAlgorithm.run, one iteration of the loop (bandits.py:232-262) *)
  Definition uniform_step (all_data : option D) (s : bstate) : step bstate (list nat) :=
    let arms := b_arms s in
    match (match all_data with
           | Some _ => match arms with [] => Err IndexError | a :: _ => Ok (a_units ops a) end
           | None => Ok 0 end) with
    | Err e => Fail e s
    | Ok start =>
        match get_data all_data start (b_g s) with
        | (Err e, g1) => Fail e (set_arms s arms g1)
        | (Ok d, g1) =>
            match pull_all d (delta_of arms) arms g1 with
            | ((arms', g2), Err e) => Fail e (set_arms s arms' g2)
            | ((arms', g2), Ok rs) =>
                let total := b_total s + length arms * c_units cfg in
                let s' := record_round (set_arms s arms' g2) rs (map (fun _ => c_units cfg) arms) total in
                match over_limit total (c_limit cfg) with
                | Err e => Fail e s'
                | Ok true =>
                    match (do rs' <- collect arms'; argmin_arms (map r_var rs')) with
                    | Err e => Fail e s'
                    | Ok best => Finish best s'
                    end
                | Ok false =>
                    match (do rs' <- collect arms'; check_end rs') with
                    | Err e => Fail e s'
                    | Ok (true, best) => Finish best s'
                    | Ok (false, _) => Continue s'
                    end
                end
            end
        end
    end.

  (** UniformAlgorithm.run (bandits.py:200-265) *)
  Definition run_uniform (fuel : nat) (all_data : option D) (arms : list A) (g : G)
    : outcome bstate (list nat) :=
    loop fuel (uniform_step all_data) (binit arms g).

  (** LUCBAlgorithm.select_arms (bandits.py:381-413): the two positions to sample. The test
      "any v is None" (line 391) never fires: collect_bounds has already raised. *)
  Definition select_arms (arms : list A) (g : G) : res (list nat) * G :=
    match collect arms with
    | Err e => (Err e, g)
    | Ok rs =>
        let lcbs := map r_lcb rs in
        let ucbs := map r_ucb rs in
        let vars := map r_var rs in
        let n := length arms in
        match py_min fltb vars with
        | Err e => (Err e, g)
        | Ok lowest =>
            if fisnan lowest then
              if n <? 2 then (Err ValueError, g)
              else let '((i, j), g') := w_choice2 w g n in (Ok [i; j], g')
            else
              let best := map (fun v => feqb v lowest) vars in
              match py_max fltb (select best ucbs) with
              | Err e => (Err e, g)
              | Ok high_ucb =>
                  match py_min fltb (select (map negb best) lcbs) with
                  | Err e => (Err e, g)
                  | Ok low_lcb =>
                      let us := select (map (fun u => feqb u high_ucb) ucbs) (seq 0 n) in
                      let ls := select (map (fun l => feqb l low_lcb) lcbs) (seq 0 n) in
                      match us with
                      | [] => (Err ValueError, g)
                      | _ =>
                          let '(i, g1) := w_choice w g us in
                          match ls with
                          | [] => (Err ValueError, g1)
                          | _ => let '(j, g2) := w_choice w g1 ls in (Ok [i; j], g2)
                          end
                      end
                  end
              end
        end
    end.

  (** LUCBAlgorithm.run, one iteration of the loop (bandits.py:342-376) *)
  Definition lucb_step (all_data : option D) (s : bstate) : step bstate (list nat) :=
    let arms := b_arms s in
    match over_limit (b_total s) (c_limit cfg) with
    | Err e => Fail e s
    | Ok true =>
        match (do rs <- collect arms; argmin_arms (map r_var rs)) with
        | Err e => Fail e s
        | Ok best => Finish best s
        end
    | Ok false =>
        match select_arms arms (b_g s) with
        | (Err e, g1) => Fail e (set_arms s arms g1)
        | (Ok is, g1) =>
            match pull_list all_data (delta_of arms) is arms g1 with
            | ((arms', g2), Some e) => Fail e (set_arms s arms' g2)
            | ((arms', g2), None) =>
                match collect arms' with
                | Err e => Fail e (set_arms s arms' g2)
                | Ok rs =>
                    let total := b_total s + 2 * c_units cfg in
                    let smp := map (fun i => if existsb (Nat.eqb i) is then c_units cfg else 0)
                                   (seq 0 (length arms)) in
                    let s' := record_round (set_arms s arms' g2) rs smp total in
                    match check_end rs with
                    | Err e => Fail e s'
                    | Ok (true, best) => Finish best s'
                    | Ok (false, _) => Continue s'
                    end
                end
            end
        end
    end.

  (** LUCBAlgorithm.run before the loop (bandits.py:317-340) *)
  Definition lucb_start (all_data : option D) (arms : list A) (g : G) : step bstate (list nat) :=
    let s := binit arms g in
    match get_data all_data 0 g with
    | (Err e, g1) => Fail e (set_arms s arms g1)
    | (Ok d, g1) =>
        match pull_all d (delta_of arms) arms g1 with
        | ((arms', g2), Err e) => Fail e (set_arms s arms' g2)
        | ((arms', g2), Ok rs) =>
            Continue (record_round (set_arms s arms' g2) rs (map (fun _ => c_units cfg) arms)
                                   (length arms * c_units cfg))
        end
    end.

  (** LUCBAlgorithm.run (bandits.py:284-379) *)
  Definition run_lucb (fuel : nat) (all_data : option D) (arms : list A) (g : G)
    : outcome bstate (list nat) :=
    match lucb_start all_data arms g with
    | Continue s => loop fuel (lucb_step all_data) s
    | Finish r s => Returned r s
    | Fail e s => Raised e s
    end.

  (** the readings of the candidates, in candidate order (bandits.py:520-527, 531-532) *)
  Definition cand_readings (cand : list nat) (rs : list reading) : list reading :=
    flat_map (fun i => match nth_error rs i with Some r => [r] | None => [] end) cand.

  (** the elimination rule (bandits.py:520-534): the surviving candidates *)
  Definition eliminate (cand : list nat) (rs : list reading) : res (list nat) :=
    let crs := cand_readings cand rs in
    do lowest_var <- py_min fltb (map r_var crs);
    do lowest_ucb <- py_min fltb (select (map (fun r => feqb (r_var r) lowest_var) crs) (map r_ucb crs));
    Ok (select (map (fun r => fltb (r_lcb r) lowest_ucb) crs) cand).

  (** SuccessiveEliminationAlgorithm.run, one evaluation of the while loop
      (bandits.py:487-538) *)
  Definition se_step (all_data : option D) (s : bstate) : step bstate (list nat) :=
    let arms := b_arms s in
    let cand := b_cand s in
    if negb (1 <? length cand) then Finish cand s
    else
      match over_limit (b_total s) (c_limit cfg) with
      | Err e => Fail e s
      | Ok true =>
          match (do rs <- collect arms; argmin_arms (map r_var rs)) with
          | Err e => Fail e s
          | Ok best => Finish best s
          end
      | Ok false =>
          match pull_list all_data (delta_of arms) cand arms (b_g s) with
          | ((arms', g2), Some e) => Fail e (set_arms s arms' g2)
          | ((arms', g2), None) =>
              match collect arms' with
              | Err e => Fail e (set_arms s arms' g2)
              | Ok rs =>
                  let total := b_total s + length cand * c_units cfg in
                  let smp := map (fun i => if existsb (Nat.eqb i) cand then c_units cfg else 0)
                                 (seq 0 (length arms)) in
                  let s' := record_round (set_arms s arms' g2) rs smp total in
                  match eliminate cand rs with
                  | Err e => Fail e s'
                  | Ok cand' =>
                      let s'' := mkB (b_arms s') (b_g s') (b_hist s') (b_smp s') (b_cum s') (b_total s') cand' in
                      if length cand' =? 1 then Finish cand' s'' else Continue s''
                  end
              end
          end
      end.

  (** SuccessiveEliminationAlgorithm.run (bandits.py:441-541) *)
  Definition run_se (fuel : nat) (all_data : option D) (arms : list A) (g : G)
    : outcome bstate (list nat) :=
    loop fuel (se_step all_data) (binit arms g).

  (** BAIBanditAlgorithm.reset (bandits.py:135-138) *)
  Definition bandit_reset (arms : list A) : list A := map (a_reset ops) arms.
End Bandit.
Arguments mkB {A G} b_arms b_g b_hist b_smp b_cum b_total b_cand.
Arguments b_arms {A G} b.
Arguments b_g {A G} b.
Arguments b_hist {A G} b.
Arguments b_smp {A G} b.
Arguments b_cum {A G} b.
Arguments b_total {A G} b.
Arguments b_cand {A G} b.
