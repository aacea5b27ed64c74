(** Numbers as used by arms.py and parameters.py: one record of operations, instantiated by
    bit-exact binary64 ([f64], with the library functions log, exp and mean as oracles) and by
    exact extended reals ([xreal]). Statements about rounding use the first instance,
    statements about the mathematics the second. *)
From Coq Require Import ZArith Reals Bool List Lia Lra.
From Flocq Require Import Core BinarySingleNaN.
From Verif Require Import PyBase Num.
Import ListNotations.

Record numops (N : Type) : Type := mkNum {
  nadd : N -> N -> N; nsub : N -> N -> N; nmul : N -> N -> N; ndiv : N -> N -> N;
  nsqrt : N -> N; nlog : N -> N; nexp : N -> N;
  nmean : list N -> N;              (* np.mean of a 1-d array; NaN when empty *)
  nlit : Z -> positive -> N;        (* the literal p/q *)
  ninf : N; nnan : N;
  nltb : N -> N -> bool; nleb : N -> N -> bool; neqb : N -> N -> bool;
  nisnan : N -> bool;
  nfloor : N -> res Z;              (* int(np.floor(x)): ValueError on NaN, OverflowError on inf *)
  nceil : N -> res Z }.             (* int(np.ceil(x)) *)
Arguments nadd {N} n. Arguments nsub {N} n. Arguments nmul {N} n. Arguments ndiv {N} n.
Arguments nsqrt {N} n. Arguments nlog {N} n. Arguments nexp {N} n. Arguments nmean {N} n.
Arguments nlit {N} n. Arguments ninf {N} n. Arguments nnan {N} n.
Arguments nltb {N} n. Arguments nleb {N} n. Arguments neqb {N} n. Arguments nisnan {N} n.
Arguments nfloor {N} n. Arguments nceil {N} n.

(** Python ints as numbers, e.g. arms.py:272-275 *)
Definition nint {N} (o : numops N) (z : Z) : N := nlit o z 1.
Definition nnat {N} (o : numops N) (n : nat) : N := nint o (Z.of_nat n).
(** x**2 (arms.py:235, 251, 272, 276). Simplification: Python floats raise OverflowError where numpy returns inf. *)
Definition nsq {N} (o : numops N) (x : N) : N := nmul o x x.
(** Python's max(a, b): the second only if it is larger (arms.py:252, 272, 277) *)
Definition nmax {N} (o : numops N) (a b : N) : N := if nltb o a b then b else a.
(** np.var of a 1-d array (arms.py:251, 362, 374): the mean of the squared deviations from the mean *)
Definition nvar {N} (o : numops N) (l : list N) : N :=
  nmean o (map (fun x => nsq o (nsub o x (nmean o l))) l).

(** ** binary64: np.log, np.exp, np.mean (arms.py:231, 274-275, parameters.py:382-383) as
    oracles *)
Record libm : Type := mkLibm { m_log : F -> F; m_exp : F -> F; m_mean : list F -> F }.

(** int(np.floor(x)) and int(np.ceil(x)) (arms.py:350, 367-368) of a finite float, exactly:
    m*2^e *)
Definition f_floor (x : F) : res Z :=
  match x with
  | B754_zero _ => Ok 0%Z
  | B754_infinity _ => Err OverflowError
  | B754_nan => Err ValueError
  | B754_finite s m e _ =>
      let v := if s then Zneg m else Zpos m in
      Ok (if (0 <=? e)%Z then v * 2 ^ e else v / 2 ^ (- e))%Z
  end.
Definition f_ceil (x : F) : res Z :=
  match x with
  | B754_zero _ => Ok 0%Z
  | B754_infinity _ => Err OverflowError
  | B754_nan => Err ValueError
  | B754_finite s m e _ =>
      let v := if s then Zneg m else Zpos m in
      Ok (if (0 <=? e)%Z then v * 2 ^ e else - (- v / 2 ^ (- e)))%Z
  end.

(** the operations of Python floats and numpy float64 scalars *)
Definition f64 (l : libm) : numops F :=
  mkNum F fadd fsub fmul fdiv fsqrt (m_log l) (m_exp l) (m_mean l) flit finf fnan
    fltb fleb feqb fisnan f_floor f_ceil.

(** ** exact extended reals. Simplification: one zero, so x/0 is +inf for x > 0. *)
Inductive X : Type := Fin (r : R) | PInf | NInf | XNaN.

(** addition, negation and subtraction with the IEEE rules for infinities and NaN *)
Definition xadd (a b : X) : X :=
  match a, b with
  | Fin x, Fin y => Fin (x + y)
  | XNaN, _ | _, XNaN => XNaN
  | PInf, NInf | NInf, PInf => XNaN
  | PInf, _ | _, PInf => PInf
  | NInf, _ | _, NInf => NInf
  end.
Definition xneg (a : X) : X :=
  match a with Fin x => Fin (- x) | PInf => NInf | NInf => PInf | XNaN => XNaN end.
Definition xsub (a b : X) : X := xadd a (xneg b).
(** the infinity with the sign of x, NaN for 0 *)
Definition xsigned (x : R) : X :=
  if Rlt_dec 0 x then PInf else if Rlt_dec x 0 then NInf else XNaN.
(** multiplication and division *)
Definition xmul (a b : X) : X :=
  match a, b with
  | Fin x, Fin y => Fin (x * y)
  | XNaN, _ | _, XNaN => XNaN
  | PInf, PInf | NInf, NInf => PInf
  | PInf, NInf | NInf, PInf => NInf
  | Fin x, PInf | PInf, Fin x => xsigned x
  | Fin x, NInf | NInf, Fin x => xneg (xsigned x)
  end.
Definition xdiv (a b : X) : X :=
  match a, b with
  | XNaN, _ | _, XNaN => XNaN
  | Fin x, Fin y => if Req_EM_T y 0 then xsigned x else Fin (x / y)
  | Fin _, _ => Fin 0
  | PInf, Fin y => if Rlt_dec y 0 then NInf else PInf
  | NInf, Fin y => if Rlt_dec y 0 then PInf else NInf
  | _, _ => XNaN
  end.
(** np.sqrt, np.log, np.exp (arms.py:273-275, data.py:275) *)
Definition xsqrt (a : X) : X :=
  match a with
  | Fin x => if Rlt_dec x 0 then XNaN else Fin (sqrt x)
  | PInf => PInf
  | _ => XNaN
  end.
Definition xlog (a : X) : X :=
  match a with
  | Fin x => if Rlt_dec 0 x then Fin (ln x) else if Rlt_dec x 0 then XNaN else NInf
  | PInf => PInf
  | _ => XNaN
  end.
Definition xexp (a : X) : X :=
  match a with Fin x => Fin (exp x) | PInf => PInf | NInf => Fin 0 | XNaN => XNaN end.
(** np.mean (arms.py:231) *)
Definition xsum (l : list X) : X := fold_right xadd (Fin 0) l.
Definition xmean (l : list X) : X := xdiv (xsum l) (Fin (INR (length l))).
(** comparisons: false with NaN *)
Definition xltb (a b : X) : bool :=
  match a, b with
  | XNaN, _ | _, XNaN => false
  | Fin x, Fin y => if Rlt_dec x y then true else false
  | NInf, NInf => false
  | NInf, _ => true
  | _, PInf => match a with PInf => false | _ => true end
  | _, _ => false
  end.
Definition xeqb (a b : X) : bool :=
  match a, b with
  | Fin x, Fin y => if Req_EM_T x y then true else false
  | PInf, PInf | NInf, NInf => true
  | _, _ => false
  end.
Definition xleb (a b : X) : bool := xltb a b || xeqb a b.
(** np.isnan (arms.py:236), int(np.floor(x)), int(np.ceil(x)) (arms.py:350, 367-368) *)
Definition xisnan (a : X) : bool := match a with XNaN => true | _ => false end.
Definition x_floor (a : X) : res Z :=
  match a with Fin x => Ok (Zfloor x) | XNaN => Err ValueError | _ => Err OverflowError end.
Definition x_ceil (a : X) : res Z :=
  match a with Fin x => Ok (Zceil x) | XNaN => Err ValueError | _ => Err OverflowError end.

(** the exact operations; a literal p/q is its value *)
Definition xreal : numops X :=
  mkNum X xadd xsub xmul xdiv xsqrt xlog xexp xmean (fun p q => Fin (IZR p / IZR (Zpos q))) PInf XNaN
    xltb xleb xeqb xisnan x_floor x_ceil.
