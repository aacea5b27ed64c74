(** Batches of units drawn independently. *)
From Coq Require Import List Arith ZArith Bool String Reals Lra Lia.
From Verif Require Import PyBase Num NumOps DataModel ScmModel ScmProofs ScmProps TabModel TabSpec BanditModel ArmModel ParamModel ParamSpec ParamProofs ParamProofs2
  PaperModel PaperSpec PaperProofs PaperProofs2 PaperProofs3 ScmSpec LawSpec LawProofs LawProofs2 LawProofs3 LawProofs4 ScoreSpec ScoreProofs ScoreProofs2.
Import ListNotations.
Open Scope nat_scope.
Open Scope list_scope.

Lemma Forall2_fun {A B} (R : A -> B -> Prop) l a b : (forall x y y', R x y -> R x y' -> y = y') -> Forall2 R l a -> Forall2 R l b -> a = b.
Proof.
  intros HR Ha. revert b. induction Ha as [|x y l a Hxy Ha IH]; intros b Hb; inversion Hb; subst; [reflexivity|].
  f_equal; [eapply HR; eassumption|now apply IH].
Qed.
Lemma mean_rsum {A B} (d : law A) (f : B -> A -> R) (l : list B) :
  mean d (fun a => rsum (map (fun b => f b a) l)) = rsum (map (fun b => mean d (f b)) l).
Proof.
  induction l as [|b l IH]; cbn [map rsum]; [apply mean_zero|]. rewrite <- IH, <- mean_plus. reflexivity.
Qed.
Lemma rsum_const {B} (c : R) (l : list B) : rsum (map (fun _ => c) l) = (INR (List.length l) * c)%R.
Proof. induction l as [|b l IH]; [cbn; lra|]. cbn [map rsum]. rewrite IH. cbn [List.length]. rewrite S_INR. lra. Qed.

Lemma forallb_same {A} (f h : A -> bool) l : (forall a, f a = h a) -> forallb f l = forallb h l.
Proof. intro H. induction l as [|a l IH]; [reflexivity|]. cbn [forallb]. now rewrite H, IH. Qed.

Section Units.
  Context {W V : Type} (w0 : W) (seeds : law W).
  Notation TU := (unit_tapes seeds).

  (** the tape of unit [u] *)
  Definition of_unit (u : nat) (g : list (list W)) : list (list W) := map (fun ws => [nth u ws w0]) g.
  Definition unit_row (u : nat) (a : arr V) : arr V := mkArr (atail a) [nth u (arows a) []].

  Lemma mean_unit1 n u F : is_law seeds -> u < n -> mean (tapes seeds n) (fun ws => F [nth u ws w0]) = mean (tapes seeds 1) F.
  Proof.
    intros (Hp & H1). revert u. induction n as [|n IH]; intros u Hu; [lia|]. rewrite mean_tapes_S. destruct u as [|u]; cbn [nth].
    - rewrite mean_tapes_S. apply mean_ext. intro w. cbn [tapes mean]. rewrite mean_const; [lra|].
      apply (tapes_law seeds n). now split.
    - rewrite (mean_ext seeds _ (fun _ => mean (tapes seeds 1) F)) by (intro w; apply IH; lia). now apply mean_const.
  Qed.
  Lemma mean_unit n k u F : is_law seeds -> u < n -> mean (TU n k) (fun g => F (of_unit u g)) = mean (TU 1 k) F.
  Proof.
    intros Hl Hu. unfold unit_tapes. revert F. induction k as [|k IH]; intro F; [reflexivity|].
    rewrite (mean_tapes_S (tapes seeds n)), (mean_tapes_S (tapes seeds 1)).
    rewrite <- (mean_unit1 n u (fun ws => mean (tapes (tapes seeds 1) k) (fun g => F (ws :: g))) Hl Hu).
    apply mean_ext. intro ws. exact (IH (fun g => F ([nth u ws w0] :: g))).
  Qed.
  Lemma in_unit1 n u ws p : u < n -> In (ws, p) (tapes seeds n) -> exists q, In ([nth u ws w0], q) (tapes seeds 1).
  Proof.
    revert u ws p. induction n as [|n IH]; intros u ws p Hu H; [lia|]. cbn [tapes] in H.
    apply in_flat_map in H as ((w, q) & Hw & H). apply in_map_iff in H as ((t, r) & [= <- <-] & H). cbn [fst snd].
    destruct u as [|u]; cbn [nth].
    - exists (q * 1)%R. cbn [tapes]. apply in_flat_map. exists (w, q). split; [exact Hw|]. now left.
    - apply (IH u t r); [lia|exact H].
  Qed.
  Lemma in_unit n k u g p : u < n -> In (g, p) (TU n k) -> exists q, In (of_unit u g, q) (TU 1 k).
  Proof.
    intro Hu. unfold unit_tapes. revert g p. induction k as [|k IH]; intros g p H.
    - cbn [tapes] in H. destruct H as [[= <- <-]|[]]. exists 1%R. now left.
    - cbn [tapes] in H. apply in_flat_map in H as ((ws, q) & Hw & H). apply in_map_iff in H as ((t, r) & [= <- <-] & H).
      destruct (in_unit1 n u ws q Hu Hw) as (q1 & H1). destruct (IH t r H) as (q2 & H2). cbn [fst snd].
      exists (q1 * q2)%R. cbn [tapes]. apply in_flat_map. eexists. split; [exact H1|]. apply in_map_iff.
      eexists. split; [|exact H2]. reflexivity.
  Qed.

  (** *** runs *)
  Context (s : scm V (list (list W))).

  Lemma sfind_units u sm sm1 ps args : (forall v, sget sm1 v = option_map (unit_row u) (sget sm v)) ->
    mapM (sfind sm) ps = Ok args -> mapM (sfind sm1) ps = Ok (map (unit_row u) args).
  Proof.
    intro H. revert args. induction ps as [|p ps IH]; intros args E; cbn [mapM] in *.
    - injection E as <-. reflexivity.
    - unfold sfind at 1 in E. unfold sfind at 1. rewrite H. destruct (sget sm p) as [a|]; cbn [bind option_map] in *; [|discriminate].
      destruct (mapM (sfind sm) ps) as [l|]; cbn [bind] in *; [|discriminate]. injection E as <-. now rewrite (IH l eq_refl).
  Qed.
  Lemma shas_units u sm sm1 : (forall v, sget sm1 v = option_map (unit_row u) (sget sm v)) -> forall v, shas sm1 v = shas sm v.
  Proof. intros H v. unfold shas. rewrite H. now destruct (sget sm v). Qed.

  Lemma gen_unit n u : u < n -> forall vs sm sm1 g r,
    (forall v f, In v vs -> sget (s_cpds s) v = Some f -> unitwise w0 f) -> List.length vs <= List.length g ->
    (forall v, sget sm1 v = option_map (unit_row u) (sget sm v)) ->
    (forall v a, sget sm v = Some a -> List.length (arows a) = n) ->
    fst (gen_loop s n vs sm g) = Ok r ->
    exists r1, fst (gen_loop s 1 vs sm1 (of_unit u g)) = Ok r1 /\
      (forall v, sget r1 v = option_map (unit_row u) (sget r v)) /\ (forall v a, sget r v = Some a -> List.length (arows a) = n).
  Proof.
    intro Hu. induction vs as [|v vs IH]; intros sm sm1 g r Hf Hlen Hsm Hrows E; cbn [gen_loop] in *.
    - cbn [fst] in E. injection E as <-. exists sm1. now repeat split.
    - destruct (sget (s_parents s) v) as [ps|]; [|discriminate].
      rewrite (forallb_same (shas sm1) (shas sm) ps (shas_units u sm sm1 Hsm)).
      destruct (negb (forallb (shas sm) ps)); [discriminate|].
      destruct (mapM (sfind sm) ps) as [args|] eqn:Ea; [|discriminate]. rewrite (sfind_units u sm sm1 ps args Hsm Ea).
      destruct (sget (s_cpds s) v) as [f|] eqn:Ef; [|discriminate].
      destruct (Hf v f (or_introl eq_refl) Ef) as (t & phi & Hphi).
      destruct g as [|ws g]; [cbn in Hlen; lia|]. unfold of_unit. cbn [map]. fold (of_unit u g). rewrite Hphi in E. rewrite Hphi.
      refine (IH _ _ g r _ _ _ _ E).
      + intros v' f' Hin. apply Hf. now right.
      + cbn in Hlen. lia.
      + intro v'. destruct (String.eqb_spec v' v) as [->|Hne].
        * rewrite !sget_same. cbn [option_map]. f_equal. unfold unit_row. cbn [atail arows]. f_equal.
          cbn [seq map]. f_equal.
          rewrite (nth_indep _ [] (phi (map (fun a => nth 0 (arows a) []) args) (nth 0 ws w0))) by (rewrite map_length, seq_length; exact Hu).
          rewrite (map_nth (fun u => phi (map (fun a => nth u (arows a) []) args) (nth u ws w0))), seq_nth by exact Hu.
          rewrite map_map. reflexivity.
        * rewrite !sget_other by exact Hne. apply Hsm.
      + intros v' a'. destruct (String.eqb_spec v' v) as [->|Hne].
        * rewrite sget_same. intros [= <-]. cbn [arows]. now rewrite map_length, seq_length.
        * rewrite sget_other by exact Hne. apply Hrows.
  Qed.
End Units.
