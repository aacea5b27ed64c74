(** Proofs about adjustment in the graph of Section 5. *)
From Coq Require Import List Arith ZArith Bool String Reals Lra Lia FunctionalExtensionality.
From Verif Require Import PyBase DataModel ScmModel ScmProofs PaperModel PaperSpec PaperProofs ScmSpec LawSpec LawProofs.
Import ListNotations.
Open Scope nat_scope.
Open Scope list_scope.

(** ** independent pairs (V_i, Z_i) *)
Section Pairs.
  Context {A : Type} (KV : nat -> law A) (KZ : nat -> A -> law A).

  Fixpoint pmean (l : list nat) (F : list A -> list A -> R) : R :=
    match l with
    | [] => F [] []
    | i :: l' => mean (KV i) (fun v => mean (KZ i v) (fun z => pmean l' (fun vs zs => F (v :: vs) (z :: zs))))
    end.

  Lemma pmean_ext l : forall F H, (forall vs zs, List.length vs = List.length l -> List.length zs = List.length l -> F vs zs = H vs zs) ->
    pmean l F = pmean l H.
  Proof.
    induction l as [|i l IH]; intros F H E; cbn [pmean]; [now apply E|].
    apply mean_ext. intro v. apply mean_ext. intro z. apply IH. intros vs zs Hv Hz. apply E; cbn; congruence.
  Qed.
  Lemma pmean_scal l : forall c F, pmean l (fun vs zs => (c * F vs zs)%R) = (c * pmean l F)%R.
  Proof.
    induction l as [|i l IH]; intros c F; cbn [pmean]; [reflexivity|].
    rewrite <- mean_scal. apply mean_ext. intro v. rewrite <- mean_scal. apply mean_ext. intro z. apply IH.
  Qed.
  Lemma pmean_mean {B} (d : law B) l : forall F,
    pmean l (fun vs zs => mean d (fun b => F b vs zs)) = mean d (fun b => pmean l (F b)).
  Proof.
    induction l as [|i l IH]; intros F; cbn [pmean]; [reflexivity|].
    rewrite mean_swap. apply mean_ext. intro v. rewrite mean_swap. apply mean_ext. intro z.
    exact (IH (fun b vs zs => F b (v :: vs) (z :: zs))).
  Qed.

  (** weights that are products over the paths *)
  Fixpoint wgt (es : list ((A -> R) * (A -> R))) (vs zs : list A) : R :=
    match es, vs, zs with
    | (a, b) :: es', v :: vs', z :: zs' => (a v * b z * wgt es' vs' zs')%R
    | _, _, _ => 1%R
    end.

  (** nonzero in one point at most *)
  Definition pointed (a : A -> R) : Prop := exists o : option A, forall v, a v <> 0%R -> o = Some v.


  (** given one of V_i and Z_i for every i, the V_i and the Z_i are independent *)
  Lemma independent l : forall es f h, List.length es = List.length l ->
    Forall (fun ab => pointed (fst ab) \/ pointed (snd ab)) es ->
    (pmean l (wgt es) * pmean l (fun vs zs => wgt es vs zs * (f vs * h zs)) =
     pmean l (fun vs zs => wgt es vs zs * f vs) * pmean l (fun vs zs => wgt es vs zs * h zs))%R.
  Proof.
    induction l as [|i l IH]; intros es f h Hl Hes.
    - destruct es; [|discriminate]. cbn. lra.
    - destruct es as [|(a, b) es]; [discriminate|]. injection Hl as Hl. inversion Hes as [|? ? Hp Hes']; subst. cbn [fst snd] in Hp.
      assert (E : forall (F : list A -> list A -> R),
        pmean (i :: l) (fun vs zs => wgt ((a, b) :: es) vs zs * F vs zs)%R =
        mean (KV i) (fun v => a v * mean (KZ i v) (fun z => b z * pmean l (fun vs zs => wgt es vs zs * F (v :: vs) (z :: zs))))%R).
      { intro F. cbn [pmean]. apply mean_ext. intro v. rewrite <- mean_scal. apply mean_ext. intro z.
        cbn [wgt]. rewrite <- !pmean_scal. apply pmean_ext. intros; lra. }
      assert (E1 : pmean (i :: l) (wgt ((a, b) :: es)) =
        mean (KV i) (fun v => a v * mean (KZ i v) (fun z => b z * pmean l (wgt es)))%R).
      { rewrite <- (pmean_ext (i :: l) (fun vs zs => wgt ((a, b) :: es) vs zs * 1)%R) by (intros; lra).
        rewrite (E (fun _ _ => 1%R)). apply mean_ext. intro v. f_equal. apply mean_ext. intro z. f_equal. apply pmean_ext. intros; lra. }
      rewrite E1, !E.
      pose proof (fun v z => IH es (fun vs => f (v :: vs)) (fun zs => h (z :: zs)) Hl Hes') as HI. cbn beta in HI.
      set (B := pmean l (wgt es)) in *.
      set (N := fun v z => pmean l (fun vs zs => wgt es vs zs * (f (v :: vs) * h (z :: zs)))%R) in *.
      set (Fv := fun v => pmean l (fun vs zs => wgt es vs zs * f (v :: vs))%R) in *.
      set (Hz := fun z => pmean l (fun vs zs => wgt es vs zs * h (z :: zs))%R) in *.
      change (mean (KV i) (fun v => a v * mean (KZ i v) (fun z => b z * B)) *
              mean (KV i) (fun v => a v * mean (KZ i v) (fun z => b z * N v z)) =
              mean (KV i) (fun v => a v * mean (KZ i v) (fun z => b z * Fv v)) *
              mean (KV i) (fun v => a v * mean (KZ i v) (fun z => b z * Hz z)))%R.
      change (forall v z, (B * N v z = Fv v * Hz z)%R) in HI.
      assert (EB : mean (KV i) (fun v => a v * mean (KZ i v) (fun z => b z * B))%R = (mean (KV i) (fun v => a v * mean (KZ i v) b) * B)%R).
      { rewrite <- mean_scal_r. apply mean_ext. intro v. rewrite mean_scal_r. lra. }
      assert (EF : mean (KV i) (fun v => a v * mean (KZ i v) (fun z => b z * Fv v))%R = mean (KV i) (fun v => (a v * mean (KZ i v) b) * Fv v)%R).
      { apply mean_ext. intro v. rewrite mean_scal_r. lra. }
      rewrite EB, EF, Rmult_assoc.
      assert (EN : (B * mean (KV i) (fun v => a v * mean (KZ i v) (fun z => b z * N v z)))%R =
        mean (KV i) (fun v => a v * (Fv v * mean (KZ i v) (fun z => b z * Hz z)))%R).
      { rewrite <- mean_scal. apply mean_ext. intro v.
        transitivity (a v * (B * mean (KZ i v) (fun z => b z * N v z)))%R; [ring|]. f_equal.
        rewrite <- !mean_scal. apply mean_ext. intro z. pose proof (HI v z).
        replace (B * (b z * N v z))%R with (b z * (B * N v z))%R by ring. rewrite H. ring. }
      rewrite EN.
      destruct Hp as [(ov & Hp)|(oz & Hp)].
      + (* V_i is fixed *)
        destruct ov as [v0|].
        * assert (Ha : forall (t : A -> R), mean (KV i) (fun v => a v * t v)%R = (mean (KV i) a * t v0)%R).
          { intro t. rewrite <- mean_scal_r. apply mean_ext. intro v. destruct (Req_dec (a v) 0) as [E0|E0]; [rewrite E0; lra|].
            pose proof (Hp v E0) as Ev. injection Ev as ->. reflexivity. }
          rewrite !Ha.
          rewrite (mean_ext _ (fun v => a v * mean (KZ i v) b * Fv v)%R (fun v => a v * (mean (KZ i v) b * Fv v))%R) by (intro; lra).
          rewrite Ha. ring.
        * assert (Ha : forall v, a v = 0%R) by (intro v; destruct (Req_dec (a v) 0) as [E0|E0]; [exact E0|discriminate (Hp v E0)]).
          assert (Hz0 : forall (t : A -> R), mean (KV i) (fun v => a v * t v)%R = 0%R).
          { intro t. rewrite <- (mean_zero (KV i)). apply mean_ext. intro v. rewrite Ha. lra. }
          rewrite !Hz0. lra.
      + (* Z_i is fixed *)
        destruct oz as [z0|].
        * assert (Hb : forall v (t : A -> R), mean (KZ i v) (fun z => b z * t z)%R = (mean (KZ i v) b * t z0)%R).
          { intros v t. rewrite <- mean_scal_r. apply mean_ext. intro z. destruct (Req_dec (b z) 0) as [E0|E0]; [rewrite E0; lra|].
            pose proof (Hp z E0) as Ev. injection Ev as ->. reflexivity. }
          rewrite (mean_ext _ (fun v => a v * (Fv v * mean (KZ i v) (fun z => b z * Hz z)))%R (fun v => a v * mean (KZ i v) b * Fv v * Hz z0)%R) by (intro v; rewrite Hb; ring).
          rewrite (mean_ext _ (fun v => a v * mean (KZ i v) (fun z => b z * Hz z))%R (fun v => a v * mean (KZ i v) b * Hz z0)%R) by (intro v; rewrite Hb; ring).
          rewrite !mean_scal_r. ring.
        * assert (Hb : forall z, b z = 0%R) by (intro v; destruct (Req_dec (b v) 0) as [E0|E0]; [exact E0|discriminate (Hp v E0)]).
          assert (Hz0 : forall v (t : A -> R), mean (KZ i v) (fun z => b z * t z)%R = 0%R).
          { intros v t. rewrite <- (mean_zero (KZ i v)). apply mean_ext. intro z. rewrite Hb. lra. }
          assert (Hz1 : forall v, mean (KZ i v) b = 0%R).
          { intros v. rewrite <- (mean_zero (KZ i v)). apply mean_ext. intro z. apply Hb. }
          rewrite (mean_ext _ (fun v => a v * mean (KZ i v) b)%R (fun _ => 0%R)) by (intro v; rewrite Hz1; lra).
          rewrite (mean_ext _ (fun v => a v * mean (KZ i v) (fun z => b z * Hz z))%R (fun _ => 0%R)) by (intro v; rewrite Hz0; lra).
          rewrite !mean_zero. lra.
  Qed.
End Pairs.

Lemma Forall2_impl_in {A B} (P Q : A -> B -> Prop) l l' : (forall a b, In a l -> P a b -> Q a b) ->
  Forall2 P l l' -> Forall2 Q l l'.
Proof.
  intros H HP. induction HP; constructor.
  - apply H; [now left|assumption].
  - apply IHHP. intros a b Ha. apply H. now right.
Qed.

(** ** the network of Section 5 *)
Section PaperNet.
  Context {V : Type} (K : string -> list (arr V) -> law (arr V)) (pa : string -> list string) (m : nat).
  Notation A := (arr V).
  Hypothesis pa_V : forall i, 1 <= i <= m -> pa (Vn i) = [].
  Hypothesis pa_Z : forall i, 1 <= i <= m -> pa (Zn i) = [Vn i].
  Hypothesis pa_X : pa "X" = map Vn (seq 1 m).
  Hypothesis pa_Z0 : pa "Z0" = ["X"%string].
  Hypothesis pa_Y : pa "Y" = "Z0"%string :: map Zn (seq 1 m).

  Fixpoint ext (l : list nat) (vs zs : list A) (sm : sdict A) : sdict A :=
    match l, vs, zs with
    | i :: l', v :: vs', z :: zs' => ext l' vs' zs' (sset (sset sm (Vn i) v) (Zn i) z)
    | _, _, _ => sm
    end.

  Definition KV (i : nat) : law A := K (Vn i) [].
  Definition KZ (i : nat) (v : A) : law A := K (Zn i) [v].

  Lemma bn_pairs l : forall sm F, (forall i, In i l -> 1 <= i <= m) ->
    bn K pa (flat_map (fun i => [Vn i; Zn i]) l) sm F = pmean KV KZ l (fun vs zs => F (ext l vs zs sm)).
  Proof.
    induction l as [|i l IH]; intros sm F Hl; [reflexivity|]. cbn [flat_map app bn pmean].
    rewrite (pa_V i) by (apply Hl; now left). apply mean_ext. intro v.
    rewrite (pa_Z i) by (apply Hl; now left). unfold args at 1. cbn [mapM]. unfold sfind. rewrite sget_same. cbn [bind].
    apply mean_ext. intro z. rewrite IH by (intros; apply Hl; now right). reflexivity.
  Qed.

  Lemma sget_ext_other l : forall vs zs sm u, (forall i, In i l -> u <> Vn i /\ u <> Zn i) ->
    sget (ext l vs zs sm) u = sget sm u.
  Proof.
    induction l as [|i l IH]; intros [|v vs] [|z zs] sm u H; try reflexivity.
    cbn [ext]. rewrite IH by (intros; apply H; now right). destruct (H i (or_introl eq_refl)) as (H1 & H2).
    now rewrite !sget_other.
  Qed.
  Lemma sget_ext_V l : forall vs zs sm, NoDup l -> List.length vs = List.length l -> List.length zs = List.length l ->
    Forall2 (fun k x => sget (ext l vs zs sm) k = Some x) (map Vn l) vs.
  Proof.
    induction l as [|i l IH]; intros [|v vs] [|z zs] sm Hnd Hv Hz; try discriminate; cbn [map ext]; constructor.
    - inversion Hnd; subst. rewrite sget_ext_other.
      + rewrite sget_other by discriminate. apply sget_same.
      + intros j Hj. split; [intro E; apply Vn_inj in E; subst; contradiction|discriminate].
    - inversion Hnd; subst. apply IH; trivial; now injection Hv as ?; injection Hz as ?.
  Qed.
  Lemma sget_ext_Z l : forall vs zs sm, NoDup l -> List.length vs = List.length l -> List.length zs = List.length l ->
    Forall2 (fun k x => sget (ext l vs zs sm) k = Some x) (map Zn l) zs.
  Proof.
    induction l as [|i l IH]; intros [|v vs] [|z zs] sm Hnd Hv Hz; try discriminate; cbn [map ext]; constructor.
    - inversion Hnd; subst. rewrite sget_ext_other.
      + apply sget_same.
      + intros j Hj. split; [discriminate|intro E; apply Zn_inj in E; subst; contradiction].
    - inversion Hnd; subst. apply IH; trivial; now injection Hv as ?; injection Hz as ?.
  Qed.

  (** everything that was drawn *)
  Definition full (vs zs : list A) (x z0 y : A) : sdict A :=
    sset (sset (sset (ext (seq 1 m) vs zs []) "X" x) "Z0" z0) "Y" y.

  Lemma sget_full_V vs zs x z0 y : List.length vs = m -> List.length zs = m ->
    Forall2 (fun k a => sget (full vs zs x z0 y) k = Some a) (map Vn (seq 1 m)) vs.
  Proof.
    intros Hv Hz. pose proof (sget_ext_V (seq 1 m) vs zs [] (seq_NoDup _ _)) as H. rewrite seq_length in H.
    specialize (H Hv Hz). unfold full. revert H. apply Forall2_impl_in. intros k a Hk H.
    apply in_map_iff in Hk as (i & <- & _). rewrite !sget_other by discriminate. exact H.
  Qed.
  Lemma sget_full_Z vs zs x z0 y : List.length vs = m -> List.length zs = m ->
    Forall2 (fun k a => sget (full vs zs x z0 y) k = Some a) (map Zn (seq 1 m)) zs.
  Proof.
    intros Hv Hz. pose proof (sget_ext_Z (seq 1 m) vs zs [] (seq_NoDup _ _)) as H. rewrite seq_length in H.
    specialize (H Hv Hz). unfold full. revert H. apply Forall2_impl_in. intros k a Hk H.
    apply in_map_iff in Hk as (i & <- & Hi). apply in_seq in Hi. rewrite sget_other by discriminate.
    rewrite sget_other by (apply Zn_neq_Z0; lia). rewrite sget_other by discriminate. exact H.
  Qed.
  Lemma sget_full_X vs zs x z0 y : sget (full vs zs x z0 y) "X" = Some x.
  Proof. unfold full. rewrite 2 sget_other by discriminate. apply sget_same. Qed.
  Lemma sget_full_Z0 vs zs x z0 y : sget (full vs zs x z0 y) "Z0" = Some z0.
  Proof. unfold full. rewrite sget_other by discriminate. apply sget_same. Qed.
  Lemma sget_full_Y vs zs x z0 y : sget (full vs zs x z0 y) "Y" = Some y.
  Proof. apply sget_same. Qed.

  Lemma bn_paper F : bn K pa (paper_vars m) [] F =
    pmean KV KZ (seq 1 m) (fun vs zs => mean (K "X" vs) (fun x => mean (K "Z0" [x]) (fun z0 =>
      mean (K "Y" (z0 :: zs)) (fun y => F (full vs zs x z0 y))))).
  Proof.
    unfold paper_vars. rewrite bn_app, bn_pairs by (intros i Hi; apply in_seq in Hi; lia).
    apply pmean_ext. intros vs zs Hv Hz. rewrite seq_length in Hv, Hz. cbn [bn].
    assert (EX : args (ext (seq 1 m) vs zs []) (pa "X") = vs).
    { unfold args. rewrite pa_X. 
      rewrite (proj2 (mapM_sfind_Forall2 (ext (seq 1 m) vs zs []) (map Vn (seq 1 m)) vs)); [reflexivity|].
      apply sget_ext_V; [apply seq_NoDup|now rewrite seq_length..]. }
    rewrite EX. apply mean_ext. intro x.
    assert (EZ : args (sset (ext (seq 1 m) vs zs []) "X" x) (pa "Z0") = [x]).
    { unfold args. rewrite pa_Z0. cbn [mapM]. unfold sfind. rewrite sget_same. reflexivity. }
    rewrite EZ. apply mean_ext. intro z0.
    match goal with |- mean (K "Y" ?a) _ = _ => assert (EY : a = z0 :: zs) end; [|rewrite EY; reflexivity].
    unfold args. rewrite pa_Y.
    rewrite (proj2 (mapM_sfind_Forall2 (sset (sset (ext (seq 1 m) vs zs []) "X" x) "Z0" z0) ("Z0"%string :: map Zn (seq 1 m)) (z0 :: zs))); [reflexivity|].
    constructor; [apply sget_same|].
    pose proof (sget_ext_Z (seq 1 m) vs zs [] (seq_NoDup _ _)) as H. rewrite seq_length in H. specialize (H Hv Hz).
    revert H. apply Forall2_impl_in. intros k a Hk H.
    apply in_map_iff in Hk as (i & <- & Hi). apply in_seq in Hi.
    rewrite sget_other by (apply Zn_neq_Z0; lia). rewrite sget_other by discriminate. exact H.
  Qed.
End PaperNet.
