(** Bandits over arms of several kinds, as the package is used (arms.py, bandits.py). *)
From Coq Require Import List Arith ZArith.
From Verif Require Import PyBase Num NumOps DataModel BanditModel ArmModel.
Import ListNotations.

Section Mixed.
  Context {V H G : Type} (lib : libm) (vnone : V) (w : arm_world F G).

  (** the class of an arm with the arguments that only this class has
      (SampleSplittingArm: arms.py:164-185, BootstrapArm: arms.py:301-312) *)
  Inductive arm_kind : Type :=
  | Splitting (opts : ss_opts F)
  | Bootstrapped (stable : bool) (nb : Z).

  (** what the constructor of an arm fixes: its class, the methods of its nuisance parameter, its
      data transformer and its cost (arms.py:64-77); the nuisance parameters of all arms
      share the type [H] of their states, which may be a sum; the cost of a BootstrapArm is 1 unless
      the attribute is set (arms.py:301-309) *)
  Record setup : Type := mkSetup {
    su_kind : arm_kind;
    su_eta : eta_ops F V H G;
    su_tr : expdata V -> res (expdata V);
    su_cost : F }.

  (** the list arm_list handed to a bandit (bandits.py:104-115): each arm with its set-up;
      calling a method of an arm calls the one of its class (arms.py:79-105, 187-291, 314-376) *)
  Definition mixed_ops : arm_ops (setup * arm F V H) (expdata V) G :=
    let one x := match su_kind (fst x) with
                 | Splitting opts => ss_arm_ops lib vnone (su_eta (fst x)) w (su_tr (fst x)) opts (su_cost (fst x))
                 | Bootstrapped stable nb => bs_arm_ops lib vnone (su_eta (fst x)) w (su_tr (fst x)) stable nb (su_cost (fst x))
                 end in
    mkArmOps (setup * arm F V H) (expdata V) G
      (fun x => a_cost (one x) (snd x))
      (fun x => a_ci (one x) (snd x))
      (fun x => a_var (one x) (snd x))
      (fun x => a_units (one x) (snd x))
      (fun x d delta g => match a_update (one x) (snd x) d delta g with
                          | ((a', g'), e) => (((fst x, a'), g'), e) end)
      (fun x => (fst x, a_reset (one x) (snd x))).
End Mixed.
Arguments setup : clear implicits.
