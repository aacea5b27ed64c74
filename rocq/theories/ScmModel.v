(** Model of the structural causal models of /repo/causal_effect_bandits/scm.py. *)
From Coq Require Import List Arith ZArith Bool String.
From Verif Require Import PyBase DataModel.
Import ListNotations.
Open Scope nat_scope.

(** ** Python dicts with string keys (scm.py:52-105: parents, cpds, samples), in insertion
    order. Lookup finds the entry of the key; assignment replaces it or adds it at the end. *)
Definition sdict (A : Type) : Type := list (string * A).

(** d.get(k), used by the lookups of scm.py:89-93, 98, 103-104 *)
Fixpoint sget {A} (d : sdict A) (k : string) : option A :=
  match d with
  | [] => None
  | (k', v) :: d' => if String.eqb k k' then Some v else sget d' k
  end.

(** d[k] = v (scm.py:93, 118, 122, 125) *)
Fixpoint sset {A} (d : sdict A) (k : string) (v : A) : sdict A :=
  match d with
  | [] => [(k, v)]
  | (k', w) :: d' => if String.eqb k k' then (k', v) :: d' else (k', w) :: sset d' k v
  end.

(** k in d (scm.py:67, 69, 89) *)
Definition shas {A} (d : sdict A) (k : string) : bool :=
  match sget d k with Some _ => true | None => false end.

(** d[k], KeyError when absent (scm.py:89, 91, 93, 98, 103-104, 116) *)
Definition sfind {A} (d : sdict A) (k : string) : res A :=
  match sget d k with Some v => Ok v | None => Err KeyError end.

(** x in l, for a list of names (scm.py:72, 74, 76) *)
Definition sin (l : list string) (x : string) : bool := existsb (String.eqb x) l.

(** A conditional distribution (scm.py:47-49): called with the number of samples and the list
    of the parents' samples; [G] is the state of numpy's global generator. It returns an array
    or raises. Simplifications: it changes nothing but the generator (in particular not the
    arrays in the list), and it does not return 0-d arrays. *)
Definition cpd (V G : Type) : Type := nat -> list (arr V) -> G -> res (arr V) * G.

(** Attributes of an SCM object (scm.py:64-83). [_n_nodes] is never read. Simplification: the
    dicts parents and cpds are the caller's objects; here they are part of the SCM. *)
Record scm (V G : Type) : Type := mkScm {
  s_name : string;
  s_vars : list string;
  s_parents : sdict (list string);
  s_cpds : sdict (cpd V G);
  s_cov : list string;
  s_trt : string;
  s_rsp : string }.
Arguments mkScm {V G} s_name s_vars s_parents s_cpds s_cov s_trt s_rsp.
Arguments s_name {V G} s.
Arguments s_vars {V G} s.
Arguments s_parents {V G} s.
Arguments s_cpds {V G} s.
Arguments s_cov {V G} s.
Arguments s_trt {V G} s.
Arguments s_rsp {V G} s.

(** the names reachable by attribute lookup on an SCM object: instance attributes of
    SCM.__init__ (scm.py:64-83) and DataGenerator.__init__ (data.py:219-220), methods of SCM
    (scm.py:52, 85, 107) and of DataGenerator (data.py:219-227). [deterministic_cpd] is a
    module-level function (scm.py:129), not among them. *)
Definition scm_attributes : list string :=
  ["_n_nodes"; "var_names"; "parents"; "treatment_variable"; "response_variable";
   "cov_variables"; "cpds"; "_name"; "__init__"; "generate";
   "compute_treatment_effect"]%string.

Section Scm.
  Context {V G : Type}.

  (** SCM.__init__ (scm.py:52-83): the checks in order, each raising ValueError *)
  Definition scm_init (name : string) (vars : list string) (parents : sdict (list string))
      (cpds : sdict (cpd V G)) (cov : list string) (trt rsp : string) : res (scm V G) :=
    if negb (forallb (shas parents) vars) then Err ValueError
    else if negb (forallb (shas cpds) vars) then Err ValueError
    else if negb (sin vars trt) then Err ValueError
    else if negb (sin vars rsp) then Err ValueError
    else if negb (forallb (sin vars) cov) then Err ValueError
    else Ok (mkScm name vars parents cpds cov trt rsp).

  (** the loop of SCM.generate (scm.py:87-93), over the remaining variables *)
  Fixpoint gen_loop (s : scm V G) (n : nat) (vs : list string) (samples : sdict (arr V)) (g : G)
    : res (sdict (arr V)) * G :=
    match vs with
    | [] => (Ok samples, g)
    | v :: vs' =>
        match sget (s_parents s) v with
        | None => (Err KeyError, g)
        | Some ps =>
            if negb (forallb (shas samples) ps) then (Err ValueError, g)
            else
              match mapM (sfind samples) ps with
              | Err e => (Err e, g)
              | Ok args =>
                  match sget (s_cpds s) v with
                  | None => (Err KeyError, g)
                  | Some f =>
                      match f n args g with
                      | (Err e, g1) => (Err e, g1)
                      | (Ok a, g1) => gen_loop s n vs' (sset samples v a) g1
                      end
                  end
              end
        end
    end.

  (** np.column_stack turns 1-d arrays into columns (scm.py:99) *)
  Definition as_column (a : arr V) : arr V :=
    match atail a with [] => mkArr [1] (arows a) | _ => a end.

  (** np.concatenate((a, b), axis=1) (scm.py:99): all other axes must agree; rows are stored
      flattened, so joining along axis 1 appends them *)
  Definition hcat (a b : arr V) : res (arr V) :=
    match atail a, atail b with
    | fa :: ta, fb :: tb =>
        if (if list_eq_dec Nat.eq_dec ta tb then true else false) && (alen a =? alen b)
        then Ok (mkArr (fa + fb :: ta) (map2 (@app V) (arows a) (arows b)))
        else Err ValueError
    | _, _ => Err ValueError
    end.

  Fixpoint hcats (a : arr V) (l : list (arr V)) : res (arr V) :=
    match l with [] => Ok a | b :: l' => do c <- hcat a b; hcats c l' end.

  (** np.column_stack (scm.py:99): "need at least one array to concatenate" *)
  Definition column_stack (l : list (arr V)) : res (arr V) :=
    match map as_column l with [] => Err ValueError | a :: l' => hcats a l' end.

  (** SCM.generate (scm.py:85-105) *)
  Definition generate (s : scm V G) (n : nat) (g : G) : res (expdata V) * G :=
    match gen_loop s n (s_vars s) [] g with
    | (Err e, g1) => (Err e, g1)
    | (Ok samples, g1) =>
        (do cols <- mapM (sfind samples) (s_cov s);
         do x <- column_stack cols;
         do t <- sfind samples (s_trt s);
         do y <- sfind samples (s_rsp s);
         Ok (ed_init (Some x) (Some t) (Some y)), g1)
    end.

  (** self.cpds[v] = f (scm.py:118, 122, 125) *)
  Definition set_cpd (s : scm V G) (v : string) (f : cpd V G) : scm V G :=
    mkScm (s_name s) (s_vars s) (s_parents s) (sset (s_cpds s) v f) (s_cov s) (s_trt s) (s_rsp s).

  (** deterministic_cpd: np.full(n_samples, value) (scm.py:129-130) *)
  Definition deterministic_cpd (n : nat) (value : V) : arr V := vec (repeat value n).

  (** lambda n, parents: self.deterministic_cpd(n, value) (scm.py:117, 121): the attribute is
      looked up when the CPD is called *)
  Definition self_deterministic_cpd (value : V) : cpd V G := fun n _ g =>
    if sin scm_attributes "deterministic_cpd" then (Ok (deterministic_cpd n value), g)
    else (Err AttributeError, g).

  (** SCM.compute_treatment_effect (scm.py:107-126). Returns the SCM with its cpds as they are
      afterwards, also when raising. [vone], [vzero]: the values 1 and 0; [effect y1 y0] is
      np.mean(y1) - np.mean(y0) on the response arrays (TypeError without responses). *)
  Definition compute_treatment_effect (vone vzero : V) (effect : arr V -> arr V -> V)
      (s : scm V G) (n : nat) (g : G) : (scm V G * res V) * G :=
    match sget (s_cpds s) (s_trt s) with
    | None => ((s, Err KeyError), g)
    | Some old =>
        let s1 := set_cpd s (s_trt s) (self_deterministic_cpd vone) in
        match generate s1 n g with
        | (Err e, g1) => ((s1, Err e), g1)
        | (Ok d1, g1) =>
            let s2 := set_cpd s1 (s_trt s) (self_deterministic_cpd vzero) in
            match generate s2 n g1 with
            | (Err e, g2) => ((s2, Err e), g2)
            | (Ok d0, g2) =>
                (set_cpd s2 (s_trt s) old,
                 match drsp d1, drsp d0 with
                 | Some y1, Some y0 => Ok (effect y1 y0)
                 | _, _ => Err TypeError
                 end, g2)
            end
        end
    end.

  (** ** categorical_conditioning (scm.py:133-161) *)

  (** an element p[i] of an array along its first axis (scm.py:158): its shape and its entries
      in order; shape [] is a number *)
  Record item : Type := mkItem { i_shape : list nat; i_data : list V }.

  (** p[i] for i >= 0 (scm.py:158), and [...](1, ...)[0] (scm.py:159) *)
  Definition aitem (a : arr V) (i : nat) : res item :=
    match nth_error (arows a) i with
    | Some r => Ok (mkItem (atail a) r)
    | None => Err IndexError
    end.

  (** a distribution: called with (1, parent_sample) (scm.py:159) *)
  Definition dist : Type := nat -> list item -> G -> res (arr V) * G.

  (** int(d) (scm.py:159): numbers and one-element arrays convert through [to_int], other
      arrays raise TypeError *)
  Definition int_of (to_int : V -> res Z) (d : list V) : res Z :=
    match d with [v] => to_int v | _ => Err TypeError end.

  (** l[k] for a Python list, negative k from the end (scm.py:152, 159) *)
  Definition lget {X} (l : list X) (k : Z) : res X :=
    do j <- norm_index (List.length l) k;
    match nth_error l j with Some x => Ok x | None => Err IndexError end.

  (** the loop of scm.py:156-159 from unit i on; [ds] are the remaining conditioning values *)
  Fixpoint cond_loop (to_int : V -> res Z) (parents : list (arr V)) (dists : list dist)
      (ds : list (list V)) (i : nat) (g : G) : res (list item) * G :=
    match ds with
    | [] => (Ok [], g)
    | d :: ds' =>
        match mapM (fun p => aitem p i) parents with
        | Err e => (Err e, g)
        | Ok sample =>
            match (do k <- int_of to_int d; lget dists k) with
            | Err e => (Err e, g)
            | Ok f =>
                match f 1 sample g with
                | (Err e, g1) => (Err e, g1)
                | (Ok a, g1) =>
                    match aitem a 0 with
                    | Err e => (Err e, g1)
                    | Ok x =>
                        match cond_loop to_int parents dists ds' (S i) g1 with
                        | (Err e, g2) => (Err e, g2)
                        | (Ok xs, g2) => (Ok (x :: xs), g2)
                        end
                    end
                end
            end
        end
    end.

  (** np.array(samples) (scm.py:161): the shapes must agree (ValueError in numpy >= 1.24;
      simplification: earlier versions build an array of objects) *)
  Definition np_array (l : list item) : res (arr V) :=
    match l with
    | [] => Ok (mkArr [] [])
    | x :: _ =>
        if forallb (fun y => if list_eq_dec Nat.eq_dec (i_shape y) (i_shape x)
                             then true else false) l
        then Ok (mkArr (i_shape x) (map i_data l))
        else Err ValueError
    end.

  (** categorical_conditioning (scm.py:133-161). The first component is the caller's list
      [parents] afterwards: line 153 deletes the conditioning entry from it. *)
  Definition categorical_conditioning (to_int : V -> res Z) (parents : list (arr V)) (idx : Z)
      (dists : list dist) (g : G) : (list (arr V) * res (arr V)) * G :=
    if (Z.of_nat (List.length parents) <=? idx)%Z then ((parents, Err ValueError), g)
    else
      match norm_index (List.length parents) idx with
      | Err e => ((parents, Err e), g)
      | Ok j =>
          match nth_error parents j with
          | None => ((parents, Err IndexError), g)
          | Some c =>
              let rest := delete_at j parents in
              match cond_loop to_int rest dists (arows c) 0 g with
              | (Err e, g1) => ((rest, Err e), g1)
              | (Ok xs, g1) => ((rest, np_array xs), g1)
              end
          end
      end.
End Scm.
Arguments mkItem {V} i_shape i_data.
Arguments i_shape {V} i.
Arguments i_data {V} i.
Arguments item V : clear implicits.
Arguments dist V G : clear implicits.
