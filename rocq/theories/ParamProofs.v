(** Lemmas about the model of parameters.py: arrays, AIPW. *)
From Coq Require Import List Arith ZArith Reals Bool Lia Lra.
From Flocq Require Import Core BinarySingleNaN.
From Verif Require Import PyBase PyLemmas Num NumLemmas NumOps FloatOps NumLaws DataModel ScmModel TabModel TabSpec TabReal ArmModel ParamModel ParamSpec.
Import ListNotations.
Open Scope nat_scope.

Lemma vec_of_vec {N} (x : list N) : vec_of (Some (vec x)) = Ok x.
Proof.
  unfold vec_of, vec. cbn [atail arows]. induction x as [|a x IH]; [reflexivity|].
  cbn [map mapM bind]. rewrite IH. reflexivity.
Qed.
Lemma map2_length {A B C} (f : A -> B -> C) l m : length l = length m -> length (map2 f l m) = length l.
Proof. revert m. induction l as [|a l IH]; intros [|b m] H; try discriminate; [reflexivity|]. cbn. rewrite IH; [reflexivity|now injection H]. Qed.
Lemma stack_vec {N} (x : list N) k rows : length x = length rows ->
  column_stack [vec x; mkArr [k] rows] = Ok (with_exposure x k rows).
Proof.
  intros Hl.
  assert (G : hcat (mkArr [1] (map (fun v => [v]) x)) (mkArr [k] rows) = Ok (with_exposure x k rows)).
  { unfold hcat. cbn [atail arows]. destruct (list_eq_dec Nat.eq_dec [] []); [|contradiction].
    unfold alen. cbn [arows]. rewrite map_length, Hl, Nat.eqb_refl. cbn [andb]. unfold with_exposure. do 2 f_equal.
    clear. revert rows. induction x as [|a x IH]; intros [|r rows]; cbn; try reflexivity. now rewrite IH. }
  change (column_stack [vec x; mkArr [k] rows]) with
    (do c <- hcat (mkArr [1] (map (fun v => [v]) x)) (mkArr [k] rows); hcats c []).
  rewrite G. reflexivity.
Qed.
Lemma with_cov_ok {N} (d : expdata N) k rows x : dcov d = Some (mkArr [k] rows) -> length x = length rows ->
  with_cov x d = Ok (with_exposure x k rows).
Proof. intros Hc Hl. unfold with_cov. rewrite Hc. cbn [arr_of bind]. now apply stack_vec. Qed.
Lemma map2_map {A B C A' B'} (f : A -> B -> C) (g : A' -> A) (h : B' -> B) l m :
  map2 f (map g l) (map h m) = map2 (fun a b => f (g a) (h b)) l m.
Proof. revert m. induction l as [|a l IH]; intros [|b m]; cbn; try reflexivity. now rewrite IH. Qed.
Lemma map2_same {A B} (f : A -> A -> B) l : map2 f l l = map (fun a => f a a) l.
Proof. induction l; cbn; congruence. Qed.
Lemma map2_diag {T A B C} (f : A -> B -> C) (g : T -> A) (h : T -> B) l :
  map2 f (map g l) (map h l) = map (fun a => f (g a) (h a)) l.
Proof. now rewrite map2_map, map2_same. Qed.
Lemma bzip_same {N} (f : N -> N -> N) a b : length a = length b -> bzip f a b = Ok (map2 f a b).
Proof. intros H. unfold bzip. now rewrite H, Nat.eqb_refl. Qed.
Lemma bzip_map {N T} (f : N -> N -> N) (g h : T -> N) l : bzip f (map g l) (map h l) = Ok (map (fun a => f (g a) (h a)) l).
Proof. rewrite bzip_same by now rewrite !map_length. now rewrite map2_diag. Qed.
Lemma bzip_one_r {N} (f : N -> N -> N) l y : bzip f l [y] = Ok (map (fun x => f x y) l).
Proof. destruct l as [|a [|b l]]; reflexivity. Qed.
Lemma bzip_one_l {N} (f : N -> N -> N) x l : bzip f [x] l = Ok (map (f x) l).
Proof. destruct l as [|a [|b l]]; reflexivity. Qed.
Lemma baccum_map {N T} (o : numops N) (g h : T -> N) l : baccum o (map g l) (map h l) = Ok (map (fun a => nadd o (g a) (h a)) l).
Proof. unfold baccum. now rewrite !map_length, Nat.eqb_refl, map2_diag. Qed.
Lemma repeat_map {A B} (b : B) (l : list A) : repeat b (length l) = map (fun _ => b) l.
Proof. induction l; cbn; congruence. Qed.

(** the columns of stacked columns, all indexed by one list of units *)
Lemma seq_nth_map {T A} (g : T -> A) (l : list T) (dflt : A) :
  map (fun i => nth i (map g l) dflt) (seq 0 (length l)) = map g l.
Proof.
  assert (G : forall l0 l1, length l0 = length l1 -> (forall i, i < length l0 -> nth i l0 dflt = nth i l1 dflt) -> l0 = l1).
  { intros l0 l1 H1 H2. apply nth_ext with (d := dflt) (d' := dflt); assumption. }
  apply G; [now rewrite !map_length, seq_length|].
  intros i Hi. rewrite map_length, seq_length in Hi.
  rewrite (nth_indep _ dflt (nth 0 (map g l) dflt)) by now rewrite map_length, seq_length.
  rewrite (map_nth (fun i => nth i (map g l) dflt)), seq_nth by assumption. reflexivity.
Qed.
Lemma stack_map {N T} (o : numops N) (gs : list (T -> N)) (l : list T) : gs <> [] ->
  stack_columns o (map (fun g => map g l) gs) = Ok (map (fun t => map (fun g => g t) gs) l).
Proof.
  intros H. destruct gs as [|g gs]; [congruence|]. unfold stack_columns. cbn [map].
  rewrite (proj2 (forallb_forall _ _)).
  2:{ intros c [<-|Hc]; [apply Nat.eqb_refl|]. apply in_map_iff in Hc as (g' & <- & _). apply Nat.eqb_eq. now rewrite !map_length. }
  f_equal. rewrite map_length. apply nth_ext with (d := []) (d' := []).
  - now rewrite !map_length, seq_length.
  - intros i Hi. rewrite map_length, seq_length in Hi.
    rewrite (nth_indep _ [] ((fun i => nth i (map g l) (nnan o) :: map (fun c' => nth i c' (nnan o)) (map (fun g => map g l) gs)) 0)) by now rewrite map_length, seq_length.
    rewrite (map_nth (fun i => nth i (map g l) (nnan o) :: map (fun c' => nth i c' (nnan o)) (map (fun g => map g l) gs))), seq_nth by assumption. cbn [Nat.add].
    destruct l as [|t0 l0]; [cbn in Hi; lia|]. set (l := t0 :: l0) in *.
    rewrite (nth_indep (map (fun t => g t :: map (fun g => g t) gs) l) [] ((fun t => g t :: map (fun g => g t) gs) t0)) by now rewrite map_length.
    rewrite (map_nth (fun t => g t :: map (fun g => g t) gs)).
    assert (E : forall g', nth i (map g' l) (nnan o) = g' (nth i l t0)).
    { intros g'. rewrite (nth_indep _ (nnan o) (g' t0)) by now rewrite map_length. apply map_nth. }
    rewrite E. f_equal. rewrite map_map. apply map_ext. intros g'. apply E.
Qed.
Lemma col_map {N T} (o : numops N) k (gs : list (T -> N)) (l : list T) (g : T -> N) : nth_error gs k = Some g ->
  col o k (map (fun t => map (fun g => g t) gs) l) = map g l.
Proof.
  intros H. unfold col. rewrite map_map. apply map_ext. intros t.
  apply nth_error_nth with (d := nnan o). exact (map_nth_error (fun g => g t) k gs H).
Qed.
Lemma width_map {N T} k (gs : list (T -> N)) (l : list T) : length gs = k ->
  wrong_width k (map (fun t => map (fun g => g t) gs) l) = false.
Proof.
  intros H. unfold wrong_width. rewrite (proj2 (forallb_forall _ _)); [reflexivity|].
  intros r Hr. apply in_map_iff in Hr as (t & <- & _). apply Nat.eqb_eq. now rewrite map_length.
Qed.

(** ** counting *)
Lemma xreal_counting B : counting xreal B.
Proof.
  constructor.
  - intros a b _ _ _. rewrite !nint_x. cbn. now rewrite plus_IZR.
  - intros a b _ _. rewrite !nint_x. cbn. destruct (Rlt_dec (IZR a) (IZR b)) as [H|H]; symmetry.
    + apply Z.ltb_lt, lt_IZR, H.
    + apply Z.ltb_ge, le_IZR. lra.
Qed.
Lemma f64_counting lib B : (B <= 2 ^ 53)%Z -> counting (f64 lib) B.
Proof.
  intros HB. constructor.
  - intros a b Ha Hb H. unfold nint. cbn [nadd nlit f64].
    pose proof (fadd_nat (Z.to_nat a) (Z.to_nat b)) as G. rewrite Nat2Z.inj_add, !Z2Nat.id in G by assumption. apply G. lia.
  - intros a b Ha Hb. unfold nint. cbn [nltb nlit f64].
    destruct (flit1 a) as [A1 A2]; [lia|]. destruct (flit1 b) as [B1 B2]; [lia|].
    assert (Fk : forall x : F, is_finite x = true -> num x /\ fkey x = B2R x) by (intros [ | | | ]; easy).
    destruct (Fk _ A1) as [NA KA], (Fk _ B1) as [NB KB].
    destruct (Z.ltb_spec a b) as [H|H].
    + apply fltb_spec. repeat split; try assumption. rewrite KA, KB, A2, B2. now apply IZR_lt.
    + destruct (fltb (flit a 1) (flit b 1)) eqn:E; [|reflexivity]. apply fltb_spec in E as (_ & _ & E).
      rewrite KA, KB, A2, B2 in E. apply lt_IZR in E. lia.
Qed.

Lemma treated_control bs : treated bs + control bs = length bs.
Proof. unfold treated, control. induction bs as [|[] bs IH]; cbn [count_occ length]; [reflexivity| |]; repeat (destruct (bool_dec _ _); try congruence); lia. Qed.
Lemma nsum_bits {N} (o : numops N) B : counting o B -> forall bs, (Z.of_nat (length bs) <= B)%Z ->
  nsum o (bits o bs) = nint o (Z.of_nat (treated bs)).
Proof.
  intros Hc bs HB. unfold nsum. change (nint o 0) with (nint o (Z.of_nat 0)).
  assert (G : forall acc, (Z.of_nat (acc + length bs) <= B)%Z -> fold_left (nadd o) (bits o bs) (nint o (Z.of_nat acc)) = nint o (Z.of_nat (acc + treated bs))).
  { clear HB. induction bs as [|b bs IH]; intros acc HB; [cbn; now rewrite Nat.add_0_r|].
    cbn [bits map fold_left]. change (bit o b) with (nint o (if b then 1 else 0)). cbn [length] in HB.
    rewrite (c_add _ _ Hc); [|lia|destruct b; lia|destruct b; lia].
    replace (Z.of_nat acc + (if b then 1 else 0))%Z with (Z.of_nat (acc + if b then 1 else 0)) by (destruct b; lia).
    change (map (bit o) bs) with (bits o bs). rewrite IH by (destruct b; lia). f_equal. f_equal.
    unfold treated. cbn [count_occ]. destruct b, (bool_dec _ _); try congruence; lia. }
  apply (G 0). lia.
Qed.
Lemma too_few_bits {N} (o : numops N) B m bs : counting o B ->
  (Z.of_nat (length bs) + Z.abs m <= B)%Z ->
  too_few o m (length bs) (bits o bs) = false <-> large_enough m bs.
Proof.
  intros Hc HB. unfold too_few. rewrite (nsum_bits o B) by (assumption || lia).
  pose proof (treated_control bs) as Ht.
  rewrite !(c_ltb _ _ Hc) by lia. rewrite orb_false_iff, !Z.ltb_ge. unfold large_enough. lia.
Qed.
Lemma large_dec m bs : {large_enough m bs} + {~ large_enough m bs}.
Proof.
  unfold large_enough. destruct (Z_le_dec m (Z.of_nat (treated bs))), (Z_le_dec m (Z.of_nat (control bs))); [left|right|right|right]; tauto.
Qed.
