(** Proofs about the law of generated data. *)
From Coq Require Import List Arith ZArith Bool String Reals Lra Lia FunctionalExtensionality.
From Verif Require Import PyBase DataModel ScmModel ScmProofs PaperModel PaperSpec PaperProofs ScmSpec LawSpec.
Import ListNotations.
Open Scope nat_scope.
Open Scope list_scope.

(** ** means *)
Lemma mean_ext_in {A} (d : law A) f h : (forall a p, In (a, p) d -> f a = h a) -> mean d f = mean d h.
Proof.
  induction d as [|(a, p) d IH]; intro H; cbn [mean]; [reflexivity|].
  rewrite (H a p) by now left. rewrite IH; [reflexivity|]. intros b q Hb. apply (H b q). now right.
Qed.
Lemma mean_ext {A} (d : law A) f h : (forall a, f a = h a) -> mean d f = mean d h.
Proof. intro H. apply mean_ext_in. intros. apply H. Qed.
Lemma mean_ext_pos {A} (d : law A) f h : (forall a p, In (a, p) d -> (0 <= p)%R) ->
  (forall a p, In (a, p) d -> (0 < p)%R -> f a = h a) -> mean d f = mean d h.
Proof.
  induction d as [|(a, p) d IH]; intros Hp H; cbn [mean]; [reflexivity|].
  rewrite IH; [|intros b q Hb; apply (Hp b q); now right|intros b q Hb; apply (H b q); now right].
  f_equal. destruct (Hp a p (or_introl eq_refl)) as [H0|<-]; [|lra].
  rewrite (H a p (or_introl eq_refl) H0). reflexivity.
Qed.
Lemma mean_zero {A} (d : law A) : mean d (fun _ => 0%R) = 0%R.
Proof. induction d as [|(a, p) d IH]; cbn [mean]; [reflexivity|]. rewrite IH. lra. Qed.
Lemma mean_plus {A} (d : law A) f h : mean d (fun a => (f a + h a)%R) = (mean d f + mean d h)%R.
Proof. induction d as [|(a, p) d IH]; cbn [mean]; [lra|]. rewrite IH. lra. Qed.
Lemma mean_scal {A} (d : law A) c f : mean d (fun a => (c * f a)%R) = (c * mean d f)%R.
Proof. induction d as [|(a, p) d IH]; cbn [mean]; [lra|]. rewrite IH. lra. Qed.
Lemma mean_scal_r {A} (d : law A) c f : mean d (fun a => (f a * c)%R) = (mean d f * c)%R.
Proof. induction d as [|(a, p) d IH]; cbn [mean]; [lra|]. rewrite IH. lra. Qed.
Lemma mean_const {A} (d : law A) c : mean d (fun _ => 1%R) = 1%R -> mean d (fun _ => c) = c.
Proof.
  intro H. rewrite (mean_ext d (fun _ => c) (fun _ => (c * 1)%R)) by (intros; lra).
  rewrite mean_scal, H. lra.
Qed.
Lemma mean_app {A} (d1 d2 : law A) f : mean (d1 ++ d2) f = (mean d1 f + mean d2 f)%R.
Proof. induction d1 as [|(a, p) d IH]; cbn [mean app]; [lra|]. rewrite IH. lra. Qed.
Lemma mean_nonneg {A} (d : law A) f : (forall a p, In (a, p) d -> (0 <= p)%R) ->
  (forall a, (0 <= f a)%R) -> (0 <= mean d f)%R.
Proof.
  induction d as [|(a, p) d IH]; intros Hp Hf; cbn [mean]; [lra|].
  apply Rplus_le_le_0_compat; [apply Rmult_le_pos; [eapply Hp; now left|apply Hf]|].
  apply IH; [|exact Hf]. intros b q Hb. eapply Hp. right. exact Hb.
Qed.
Lemma mean_le {A} (d : law A) f h : (forall a p, In (a, p) d -> (0 <= p)%R) ->
  (forall a, (f a <= h a)%R) -> (mean d f <= mean d h)%R.
Proof.
  induction d as [|(a, p) d IH]; intros Hp Hf; cbn [mean]; [lra|].
  apply Rplus_le_compat; [apply Rmult_le_compat_l; [eapply Hp; now left|apply Hf]|].
  apply IH; [|exact Hf]. intros b q Hb. eapply Hp. right. exact Hb.
Qed.
Lemma mean_ge_term {A} (d : law A) f a p : (forall a p, In (a, p) d -> (0 <= p)%R) ->
  (forall a, (0 <= f a)%R) -> In (a, p) d -> (p * f a <= mean d f)%R.
Proof.
  intros Hp Hf Hin. induction d as [|(b, q) d IH]; [destruct Hin|]. cbn [mean].
  assert (Hd : forall a p, In (a, p) d -> (0 <= p)%R) by (intros ? ? H; eapply Hp; right; exact H).
  destruct Hin as [[= -> ->]|Hin].
  - pose proof (mean_nonneg d f Hd Hf). lra.
  - pose proof (IH Hd Hin). pose proof (Rmult_le_pos q (f b) (Hp b q (or_introl eq_refl)) (Hf b)). lra.
Qed.
Lemma mean_swap {A B} (d : law A) (e : law B) f :
  mean d (fun a => mean e (fun b => f a b)) = mean e (fun b => mean d (fun a => f a b)).
Proof.
  induction d as [|(a, p) d IH]; cbn [mean].
  - symmetry. apply mean_zero.
  - rewrite IH, <- mean_scal, <- mean_plus. apply mean_ext. intros. reflexivity.
Qed.
Lemma mean_map {A B} (h : A -> B) (d : law A) f :
  mean (map (fun wp => (h (fst wp), snd wp)) d) f = mean d (fun a => f (h a)).
Proof. induction d as [|(a, p) d IH]; cbn [mean map fst snd]; [reflexivity|]. now rewrite IH. Qed.

(** averaging over a class of outcomes first does not change the mean *)
Lemma tower {A} (d : law A) (agree : A -> A -> bool) f : (forall a p, In (a, p) d -> (0 <= p)%R) ->
  (forall o, agree o o = true) ->
  (forall o o', agree o o' = true -> forall x, agree o x = agree o' x) ->
  mean d (fun o => mean_given d (agree o) f) = mean d f.
Proof.
  intros Hp Hr Ht. unfold mean_given.
  rewrite (mean_ext d _ (fun o => mean d (fun o' => ((if agree o o' then f o' else 0) * / prob d (agree o))%R)))
    by (intro; now rewrite mean_scal_r).
  rewrite mean_swap. apply mean_ext_pos; [exact Hp|]. intros o' p Hin Hpos.
  assert (Hb : (0 < prob d (agree o'))%R).
  { apply Rlt_le_trans with (p * (if agree o' o' then 1 else 0))%R; [rewrite Hr; lra|].
    apply (mean_ge_term d (fun a => if agree o' a then 1 else 0)%R o' p Hp); [|exact Hin].
    intro a. destruct (agree o' a); lra. }
  rewrite (mean_ext d _ (fun o => ((if agree o' o then 1 else 0) * (f o' * / prob d (agree o')))%R)).
  - rewrite mean_scal_r. fold (prob d (agree o')). field. lra.
  - intro o. destruct (agree o o') eqn:E.
    + pose proof (Ht o o' E) as E2. rewrite <- E2, Hr.
      replace (agree o) with (agree o') by (apply functional_extensionality; intro; now rewrite E2). lra.
    + destruct (agree o' o) eqn:E'; [|lra].
      rewrite <- (Ht o' o E'), Hr in E. discriminate.
Qed.

(** ** tapes *)
Section Tapes.
  Context {W : Type} (seeds : law W).
  Lemma mean_tapes_S k f : mean (tapes seeds (S k)) f =
    mean seeds (fun w => mean (tapes seeds k) (fun g => f (w :: g))).
  Proof.
    cbn [tapes]. generalize (tapes seeds k). intro t.
    induction seeds as [|(w, p) d IH]; cbn [flat_map mean fst snd]; [reflexivity|].
    rewrite mean_app, IH. f_equal. clear.
    induction t as [|(g, q) t IH]; cbn [map mean fst snd]; [lra|]. rewrite IH. lra.
  Qed.
  Lemma tapes_length k : forall g p, In (g, p) (tapes seeds k) -> List.length g = k.
  Proof.
    induction k as [|k IH]; intros g p H; cbn [tapes] in H.
    - destruct H as [[= <- <-]|[]]. reflexivity.
    - apply in_flat_map in H as ((w, q) & _ & H). apply in_map_iff in H as ((t, r) & [= <- <-] & H).
      cbn. f_equal. exact (IH _ _ H).
  Qed.
  Lemma tapes_pos k : (forall a p, In (a, p) seeds -> (0 <= p)%R) -> forall g p, In (g, p) (tapes seeds k) -> (0 <= p)%R.
  Proof.
    intros Hs. induction k as [|k IH]; intros g p H; cbn [tapes] in H.
    - destruct H as [[= <- <-]|[]]. lra.
    - apply in_flat_map in H as ((w, q) & Hw & H). apply in_map_iff in H as ((t, r) & [= <- <-] & H).
      cbn. apply Rmult_le_pos; [exact (Hs _ _ Hw)|exact (IH _ _ H)].
  Qed.
  Lemma tapes_law k : is_law seeds -> is_law (tapes seeds k).
  Proof.
    intros (Hp & H1). split; [now apply tapes_pos|]. induction k as [|k IH].
    - cbn. lra.
    - rewrite mean_tapes_S. rewrite (mean_ext seeds _ (fun _ => 1%R)) by (intro; exact IH). exact H1.
  Qed.
End Tapes.

(** ** the network: each variable in turn from the law given its parents *)
Section Network.
  Context {V : Type} (K : string -> list (arr V) -> law (arr V)) (pa : string -> list string).
  Notation A := (arr V).

  Definition args (sm : sdict A) (ps : list string) : list A :=
    match mapM (sfind sm) ps with Ok l => l | Err _ => [] end.

  Fixpoint bn (vs : list string) (sm : sdict A) (F : sdict A -> R) : R :=
    match vs with
    | [] => F sm
    | v :: vs' => mean (K v (args sm (pa v))) (fun a => bn vs' (sset sm v a) F)
    end.

  Lemma bn_ext vs : forall sm F H,
    (forall r, (forall u, ~ In u vs -> sget r u = sget sm u) -> F r = H r) -> bn vs sm F = bn vs sm H.
  Proof.
    induction vs as [|v vs IH]; intros sm F H E; cbn [bn].
    - apply E. reflexivity.
    - apply mean_ext. intro a. apply IH. intros r Hr. apply E. intros u Hu.
      rewrite Hr by (intro; apply Hu; now right). apply sget_other. intros ->. apply Hu. now left.
  Qed.
  Lemma bn_app l1 l2 : forall sm F, bn (l1 ++ l2) sm F = bn l1 sm (fun r => bn l2 r F).
  Proof. induction l1 as [|v l1 IH]; intros sm F; cbn [bn app]; [reflexivity|]. apply mean_ext. intro. apply IH. Qed.
  Lemma bn_zero vs : forall sm, bn vs sm (fun _ => 0%R) = 0%R.
  Proof.
    induction vs as [|v vs IH]; intro sm; cbn [bn]; [reflexivity|].
    rewrite (mean_ext _ _ (fun _ => 0%R)) by (intro; apply IH). apply mean_zero.
  Qed.

  (** *** the factorisation *)
  Lemma args_map (x : string -> A) sm ps : (forall p, In p ps -> sget sm p = Some (x p)) -> args sm ps = map x ps.
  Proof.
    intro H. unfold args. assert (E : mapM (sfind sm) ps = Ok (map x ps)); [|now rewrite E].
    apply mapM_sfind_Forall2. induction ps as [|p ps IH]; constructor; [apply H; now left|].
    apply IH. intros q Hq. apply H. now right.
  Qed.
  Lemma bn_factor (eqb : A -> A -> bool) (x : string -> A) : decides eqb -> forall vs done sm, NoDup vs ->
    (forall v, In v done -> sget sm v = Some (x v)) ->
    (forall pre v post p, vs = pre ++ v :: post -> In p (pa v) -> In p done \/ In p pre) ->
    bn vs sm (fun r => if forallb (fun v => same eqb (sget r v) (Some (x v))) vs then 1%R else 0%R) =
    product (map (fun v => prob (K v (map x (pa v))) (fun a => eqb a (x v))) vs).
  Proof.
    intro Heq. induction vs as [|v vs IH]; intros done sm Hnd Hsm Hpa; [reflexivity|].
    cbn [bn map product fold_right]. inversion Hnd as [|? ? Hv Hnd']; subst.
    rewrite (args_map x).
    2: { intros p Hp. apply Hsm. destruct (Hpa [] v vs p eq_refl Hp) as [H|[]]. exact H. }
    unfold prob at 1. rewrite <- mean_scal_r. apply mean_ext. intro a.
    rewrite (bn_ext vs _ _ (fun r => if eqb a (x v) && forallb (fun u => same eqb (sget r u) (Some (x u))) vs then 1%R else 0%R)).
    2: { intros r Hr. cbn [forallb]. rewrite (Hr v Hv), sget_same. cbn [same]. reflexivity. }
    destruct (eqb a (x v)) eqn:E; cbn [andb]; [|rewrite bn_zero; lra].
    apply Heq in E. subst a. rewrite (IH (v :: done)); [unfold product; lra|exact Hnd'| |].
    - intros u [<-|Hu]; [apply sget_same|]. destruct (String.eqb_spec u v) as [->|Hn]; [apply sget_same|].
      rewrite sget_other by exact Hn. now apply Hsm.
    - intros pre u post p E Hp. destruct (Hpa (v :: pre) u post p) as [H|[<-|H]]; [cbn; now rewrite E|exact Hp|..].
      + left. now right.
      + left. now left.
      + now right.
  Qed.
End Network.

(** ** runs on random tapes *)
Section Runs.
  Context {W V : Type} (seeds : law W) (s : scm V (list W)) (n : nat)
    (K : string -> list (arr V) -> law (arr V)) (pa : string -> list string).
  Notation A := (arr V).

  Definition fits (v : string) : Prop := sget (s_parents s) v = Some (pa v) /\
    exists f, sget (s_cpds s) v = Some f /\ draws seeds n f (K v).

  Lemma gen_law F : forall vs sm k, (forall v, In v vs -> fits v) ->
    (forall pre v post p, vs = pre ++ v :: post -> In p (pa v) -> shas sm p = true \/ In p pre) ->
    List.length vs <= k -> mean seeds (fun _ => 1%R) = 1%R ->
    mean (tapes seeds k) (fun g => F (fst (gen_loop s n vs sm g))) = bn K pa vs sm (fun r => F (Ok r)).
  Proof.
    induction vs as [|v vs IH]; intros sm k Hf Hpa Hk H1.
    - cbn [gen_loop fst bn]. apply mean_const. clear -H1. induction k as [|k IH]; [cbn; lra|].
      rewrite mean_tapes_S. rewrite (mean_ext seeds _ (fun _ => 1%R)) by (intro; exact IH). exact H1.
    - destruct (Hf v (or_introl eq_refl)) as (Ep & f & Ec & Hd).
      assert (Hb : forallb (shas sm) (pa v) = true).
      { apply forallb_forall. intros p Hp. destruct (Hpa [] v vs p eq_refl Hp) as [H|[]]. exact H. }
      destruct (mapM_sfind_all sm (pa v) Hb) as (xs & Ex).
      assert (Hstep : forall a k', List.length vs <= k' ->
        mean (tapes seeds k') (fun g => F (fst (gen_loop s n vs (sset sm v a) g))) =
        bn K pa vs (sset sm v a) (fun r => F (Ok r))).
      { intros a k' Hk'. apply IH; [intros u Hu; apply Hf; now right| |exact Hk'|exact H1].
        intros pre u post p E Hp. unfold shas. destruct (String.eqb_spec p v) as [->|Hn].
        - left. now rewrite sget_same.
        - rewrite sget_other by exact Hn. destruct (Hpa (v :: pre) u post p) as [H|[<-|H]]; [cbn; now rewrite E|exact Hp|..].
          + now left.
          + contradiction.
          + now right. }
      cbn [bn]. unfold args. rewrite Ex.
      destruct Hd as [(phi & Hphi & HK)|(a & Ha & HK)]; rewrite HK.
      + destruct k as [|k]; [cbn in Hk; lia|]. rewrite mean_tapes_S, mean_map. apply mean_ext. intro w.
        rewrite <- (Hstep (phi xs w) k) by (cbn in Hk; lia). apply mean_ext. intro g. cbn [gen_loop]. rewrite Ep, Hb. cbn [negb]. rewrite Ex, Ec, Hphi. reflexivity.
      + cbn [mean]. rewrite <- (Hstep a k) by (cbn in Hk; lia).
        rewrite (mean_ext _ _ (fun g => F (fst (gen_loop s n vs (sset sm v a) g)))); [lra|].
        intro g. cbn [gen_loop]. rewrite Ep, Hb. cbn [negb]. rewrite Ex, Ec, Ha. reflexivity.
  Qed.

  Lemma gen_runs : forall vs sm g, (forall v, In v vs -> fits v) ->
    (forall pre v post p, vs = pre ++ v :: post -> In p (pa v) -> shas sm p = true \/ In p pre) ->
    List.length vs <= List.length g -> exists r, fst (gen_loop s n vs sm g) = Ok r.
  Proof.
    induction vs as [|v vs IH]; intros sm g Hf Hpa Hk; [eexists; reflexivity|].
    destruct (Hf v (or_introl eq_refl)) as (Ep & f & Ec & Hd).
    assert (Hb : forallb (shas sm) (pa v) = true).
    { apply forallb_forall. intros p Hp. destruct (Hpa [] v vs p eq_refl Hp) as [H|[]]. exact H. }
    destruct (mapM_sfind_all sm (pa v) Hb) as (xs & Ex).
    cbn [gen_loop]. rewrite Ep, Hb. cbn [negb]. rewrite Ex, Ec.
    assert (Hstep : forall a g', List.length vs <= List.length g' -> exists r, fst (gen_loop s n vs (sset sm v a) g') = Ok r).
    { intros a g' Hg. apply IH; [intros u Hu; apply Hf; now right| |exact Hg].
      intros pre u post p E Hp. unfold shas. destruct (String.eqb_spec p v) as [->|Hn].
      - left. now rewrite sget_same.
      - rewrite sget_other by exact Hn. destruct (Hpa (v :: pre) u post p) as [H|[<-|H]]; [cbn; now rewrite E|exact Hp|..].
        + now left.
        + contradiction.
        + now right. }
    destruct Hd as [(phi & Hphi & _)|(a & Ha & _)].
    - destruct g as [|w g]; [cbn in Hk; lia|]. rewrite Hphi. apply Hstep. cbn in Hk. lia.
    - rewrite Ha. apply Hstep. cbn in Hk. lia.
  Qed.

  Lemma find_latest (log : list (call V)) v a : latest log v a ->
    match find (fun c => String.eqb (c_var c) v) (rev log) with
    | Some c => match c_out c with Ok a => Some a | Err _ => None end
    | None => None
    end = Some a.
  Proof.
    intros (pre & c & post & -> & Hv & Ho & Hn). rewrite rev_app_distr. cbn [rev]. rewrite <- app_assoc. cbn [app].
    assert (E : forall l : list (call V), ~ In v (map c_var l) ->
      forall t, find (fun c => String.eqb (c_var c) v) (l ++ t) = find (fun c => String.eqb (c_var c) v) t).
    { induction l as [|x l IH]; intros Hl t; [reflexivity|]. cbn [app find].
      destruct (String.eqb_spec (c_var x) v) as [E|E]; [exfalso; apply Hl; now left|].
      apply IH. intro H. apply Hl. now right. }
    rewrite E by (rewrite map_rev, <- in_rev; exact Hn). cbn [find]. rewrite Hv, String.eqb_refl, Ho. reflexivity.
  Qed.
  Lemma find_none (log : list (call V)) v a :
    match find (fun c => String.eqb (c_var c) v) (rev log) with
    | Some c => match c_out c with Ok a => Some a | Err _ => None end
    | None => None
    end = Some a -> latest log v a.
  Proof.
    intro H. induction log as [|c log IH] using rev_ind; [discriminate|].
    rewrite rev_app_distr in H. cbn [rev app find] in H.
    destruct (String.eqb_spec (c_var c) v) as [E|E].
    - exists log, c, []. destruct (c_out c) eqn:Eo; [injection H as <-|discriminate]. repeat split; trivial. intros [].
    - destruct (IH H) as (pre & c' & post & -> & Hv & Ho & Hn). exists pre, c', (post ++ [c]).
      rewrite <- app_assoc. repeat split; trivial. rewrite map_app, in_app_iff. intros [?|[?|[]]]; contradiction.
  Qed.

  Lemma drawn_loop g r : fst (gen_loop s n (s_vars s) [] g) = Ok r -> forall v, drawn s n g v = sget r v.
  Proof.
    intros E v. unfold drawn.
    destruct (gen_loop_logging s n (s_vars s) [] g []) as (log & El & _ & _ & Hr).
    { intros u a. cbn. split; [discriminate|]. intros ([|] & ? & ? & Ex & _); discriminate Ex. }
    destruct (Hr r E) as (_ & Hs). cbn [app] in El, Hs.
    assert (Elog : snd (snd (generate (logging s) n (g, []))) = log).
    { unfold generate. change (s_vars (logging s)) with (s_vars s). rewrite El.
      destruct (fst (gen_loop s n (s_vars s) [] g)); reflexivity. }
    rewrite Elog. destruct (sget r v) as [a|] eqn:Ev.
    - apply find_latest, Hs, Ev.
    - match goal with |- ?t = None => destruct t as [a|] eqn:E2; [|reflexivity] end.
      apply find_none, Hs in E2. congruence.
  Qed.

  (** the law of all samples *)
  Lemma drawn_law (F : (string -> option A) -> R) k : is_law seeds -> (forall v, In v (s_vars s) -> fits v) ->
    topological s -> List.length (s_vars s) <= k ->
    mean (tapes seeds k) (fun g => F (drawn s n g)) = bn K pa (s_vars s) [] (fun r => F (sget r)).
  Proof.
    intros (_ & H1) Hf Ht Hk.
    assert (Hpa : forall pre v post p, s_vars s = pre ++ v :: post -> In p (pa v) -> shas (@nil (string * A)) p = true \/ In p pre).
    { intros pre v post p E Hp. right. apply (Ht pre v post p E). exists (pa v). split; [|exact Hp].
      apply entry_sget. apply Hf. rewrite E. apply in_elt. }
    rewrite <- (gen_law (fun r => match r with Ok r => F (sget r) | Err _ => 0%R end) (s_vars s) [] k Hf Hpa Hk H1).
    apply mean_ext_in. intros g p Hg.
    destruct (gen_runs (s_vars s) [] g Hf Hpa) as (r & Er); [now rewrite (tapes_length seeds k g p Hg)|].
    rewrite Er. f_equal. apply functional_extensionality. intro v. now apply drawn_loop.
  Qed.
End Runs.
