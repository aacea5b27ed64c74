(** Lemmas about categorical_conditioning. *)
From Coq Require Import List Arith ZArith Bool String Lia.
From Verif Require Import PyBase PyLemmas DataModel ScmModel ScmSpec.
Import ListNotations.
Open Scope nat_scope.

Lemma norm_index_position n k j : norm_index n k = Ok j <-> position n k j.
Proof.
  unfold norm_index, position.
  destruct ((- Z.of_nat n <=? k)%Z && (k <? Z.of_nat n)%Z) eqn:E.
  - apply andb_true_iff in E as [E1 E2]. apply Z.leb_le in E1. apply Z.ltb_lt in E2.
    destruct (Z.ltb_spec k 0).
    + split; [intros [= <-]; lia|]. intros (H1 & [H2|H2]); f_equal; lia.
    + split; [intros [= <-]; lia|]. intros (H1 & [H2|H2]); f_equal; lia.
  - split; [discriminate|]. intros (H1 & H2).
    apply andb_false_iff in E as [E|E]; [apply Z.leb_gt in E|apply Z.ltb_ge in E]; lia.
Qed.

Lemma norm_index_err n k : (k < - Z.of_nat n \/ Z.of_nat n <= k)%Z -> norm_index n k = Err IndexError.
Proof.
  intros H. unfold norm_index.
  destruct ((- Z.of_nat n <=? k)%Z && (k <? Z.of_nat n)%Z) eqn:E; [|reflexivity].
  apply andb_true_iff in E as [E1 E2]. apply Z.leb_le in E1. apply Z.ltb_lt in E2. lia.
Qed.

Lemma lget_ok {X} (l : list X) k x :
  lget l k = Ok x <-> exists j, position (List.length l) k j /\ nth_error l j = Some x.
Proof.
  unfold lget. destruct (norm_index (List.length l) k) as [j|] eqn:E; cbn.
  - apply norm_index_position in E. destruct (nth_error l j) as [y|] eqn:Ey.
    + split; [intros [= <-]; eauto|]. intros (j' & Hj & Hx).
      assert (j' = j) by (apply norm_index_position in Hj, E; congruence). subst. congruence.
    + apply nth_error_None in Ey. destruct E. lia.
  - split; [discriminate|]. intros (j & Hj & _). apply norm_index_position in Hj. congruence.
Qed.

Section Cond.
  Context {V G : Type} (to_int : V -> res Z) (parents : list (arr V)) (dists : list (dist V G)).

  Lemma mapM_aitem i (ps : list (arr V)) xs :
    mapM (fun p => aitem p i) ps = Ok xs <->
    (forall p, In p ps -> i < List.length (arows p)) /\
    xs = map (fun p => mkItem (atail p) (nth i (arows p) [])) ps.
  Proof.
    revert xs. induction ps as [|p ps IH]; intros xs; cbn.
    - split; [intros [= <-]; split; [intros ? []|reflexivity]|]. intros (_ & ->). reflexivity.
    - unfold aitem at 1. destruct (nth_error (arows p) i) as [r|] eqn:E; cbn.
      + assert (Hi : i < List.length (arows p)) by (apply nth_error_Some; congruence).
        destruct (mapM (fun p => aitem p i) ps) as [ys|] eqn:Em; cbn.
        * destruct (IH ys) as [IH1 _]. destruct (IH1 eq_refl) as (H1 & H2). split.
          -- intros [= <-]. split; [intros q [<-|Hq]; auto|].
             rewrite (nth_error_nth _ _ _ E), <- H2. reflexivity.
          -- intros (_ & ->). rewrite (nth_error_nth _ _ _ E), H2. reflexivity.
        * split; [discriminate|]. intros (H1 & _).
          assert (Hx : Err e = Ok (map (fun p => mkItem (atail p) (nth i (arows p) [])) ps)).
          { apply IH. split; [|reflexivity]. intros q Hq. apply H1. auto. }
          discriminate Hx.
      + split; [discriminate|]. intros (H & _). apply nth_error_None in E.
        specialize (H p (or_introl eq_refl)). lia.
  Qed.

  (** the units from position i on *)
  Fixpoint chain (i : nat) (ds : list (list V)) (xs : list (item V)) (g g' : G) : Prop :=
    match ds, xs with
    | [], [] => g' = g
    | d :: ds', x :: xs' =>
        exists g1, unit_draw to_int parents dists i d x g g1 /\ chain (S i) ds' xs' g1 g'
    | _, _ => False
    end.

  Lemma cond_loop_chain : forall ds i g xs g',
    cond_loop to_int parents dists ds i g = (Ok xs, g') <-> chain i ds xs g g'.
  Proof.
    induction ds as [|d ds IH]; intros i g xs g'; cbn.
    - destruct xs; split; try discriminate; try tauto; try (intros [= <-]; reflexivity);
        intros ->; reflexivity.
    - split.
      + destruct (mapM (fun p => aitem p i) parents) as [sample|] eqn:Em; [|discriminate].
        destruct (bind (int_of to_int d) (fun k => lget dists k)) as [f|] eqn:Ef; [|discriminate].
        destruct (f 1 sample g) as [[a|] g1] eqn:Ea; [|discriminate].
        unfold aitem. destruct (nth_error (arows a) 0) as [r|] eqn:Er; [|discriminate].
        destruct (cond_loop to_int parents dists ds (S i) g1) as [[ys|] g2] eqn:El; [|discriminate].
        intros [= <- <-]. exists g1. split; [|apply IH; exact El].
        apply bind_ok in Ef as (k & Ek & Ef). unfold int_of in Ek.
        destruct d as [|v [|? ?]]; try discriminate. apply lget_ok in Ef as (j & Hj & Hf).
        apply mapM_aitem in Em as (Hp & ->).
        exists v, k, j, f, a. repeat split; auto; try apply Hj.
        destruct (arows a) as [|r' rs] eqn:Ear; [discriminate|]. cbn in Er. injection Er as ->. eauto.
      + destruct xs as [|x xs]; [tauto|].
        intros (g1 & (v & k & j & f & a & -> & Hk & Hj & Hf & Hp & Ha & r & rs & Er & ->) & Hc).
        assert (Em : mapM (fun p => aitem p i) parents =
                     Ok (map (fun p => mkItem (atail p) (nth i (arows p) [])) parents))
          by (apply mapM_aitem; auto).
        rewrite Em. cbn. rewrite Hk. cbn.
        assert (El : lget dists k = Ok f) by (apply lget_ok; eauto).
        rewrite El, Ha. unfold aitem. rewrite Er. cbn. apply IH in Hc. rewrite Hc. reflexivity.
  Qed.

  Lemma chain_units : forall ds i xs g g',
    chain i ds xs g g' <->
    exists gs, List.length gs = S (List.length ds) /\ List.length xs = List.length ds /\
      nth_error gs 0 = Some g /\ nth_error gs (List.length ds) = Some g' /\
      forall j d x g1 g2, nth_error ds j = Some d -> nth_error xs j = Some x ->
        nth_error gs j = Some g1 -> nth_error gs (S j) = Some g2 ->
        unit_draw to_int parents dists (i + j) d x g1 g2.
  Proof.
    induction ds as [|d ds IH]; intros i xs g g'; cbn.
    - destruct xs as [|x xs].
      + split.
        * intros ->. exists [g]. repeat split; auto. intros [|?] ? ? ? ? E; discriminate E.
        * intros (gs & _ & _ & H1 & H2 & _). congruence.
      + split; [tauto|]. intros (gs & _ & H & _). discriminate H.
    - destruct xs as [|x xs].
      + split; [tauto|]. intros (gs & _ & H & _). discriminate H.
      + split.
        * intros (g1 & Hu & Hc). apply IH in Hc as (gs & L1 & L2 & H0 & Hn & Hall).
          exists (g :: gs). cbn. repeat split; auto.
          intros [|j] d' x' g2 g3; cbn.
          -- intros [= <-] [= <-] [= <-] E. rewrite Nat.add_0_r. assert (g3 = g1) by (destruct gs; cbn in *; congruence). subst. exact Hu.
          -- intros E1 E2 E3 E4. replace (i + S j) with (S i + j) by lia. eapply Hall; eauto.
        * intros (gs & L1 & L2 & H0 & Hn & Hall). destruct gs as [|g0 gs]; [discriminate|].
          cbn in H0. injection H0 as ->. cbn in Hn, L1. injection L1 as L1. injection L2 as L2.
          destruct gs as [|g1 gs]; [discriminate|]. exists g1. split.
          -- specialize (Hall 0 d x g g1). rewrite Nat.add_0_r in Hall. apply Hall; reflexivity.
          -- apply IH. exists (g1 :: gs). repeat split; auto.
             intros j d' x' g2 g3 E1 E2 E3 E4. replace (S i + j) with (i + S j) by lia.
             eapply Hall; eauto.
  Qed.

  Lemma cond_loop_units ds g xs g' :
    cond_loop to_int parents dists ds 0 g = (Ok xs, g') <->
    units_draw to_int parents dists ds xs g g'.
  Proof. rewrite cond_loop_chain, chain_units. reflexivity. Qed.

  (** the first units succeed, the loop goes on with the rest *)
  Lemma cond_loop_prefix : forall ds1 ds2 i g xs g1,
    chain i ds1 xs g g1 ->
    cond_loop to_int parents dists (ds1 ++ ds2) i g =
    match cond_loop to_int parents dists ds2 (i + List.length ds1) g1 with
    | (Ok ys, g2) => (Ok (xs ++ ys), g2)
    | (Err e, g2) => (Err e, g2)
    end.
  Proof.
    induction ds1 as [|d ds1 IH]; intros ds2 i g xs g1 H.
    - destruct xs; cbn in H; [|tauto]. subst. rewrite Nat.add_0_r. cbn.
      destruct (cond_loop to_int parents dists ds2 i g) as [[?|?] ?]; reflexivity.
    - destruct xs as [|x xs]; cbn in H; [tauto|].
      destruct H as (g2 & Hu & Hc).
      assert (H1 : cond_loop to_int parents dists [d] i g = (Ok [x], g2))
        by (apply cond_loop_chain; cbn; eauto).
      cbn [List.length]. rewrite Nat.add_succ_r. change (S (i + List.length ds1)) with (S i + List.length ds1).
      specialize (IH ds2 (S i) g2 xs g1 Hc).
      cbn in H1. cbn [app cond_loop].
      destruct (mapM (fun p => aitem p i) parents) as [sample|]; [|discriminate].
      destruct (bind (int_of to_int d) (fun k => lget dists k)) as [f|]; [|discriminate].
      destruct (f 1 sample g) as [[a|] g3]; [|discriminate].
      destruct (aitem a 0) as [x'|]; [|discriminate].
      injection H1 as -> ->. rewrite IH.
      destruct (cond_loop to_int parents dists ds2 (S i + List.length ds1) g1) as [[?|?] ?]; reflexivity.
  Qed.
End Cond.

Lemma np_array_ok {V} (xs : list (item V)) a :
  np_array xs = Ok a <->
  arows a = map i_data xs /\ (forall x, In x xs -> i_shape x = atail a) /\ (xs = [] -> atail a = []).
Proof.
  unfold np_array. destruct xs as [|x xs].
  - split; [intros [= <-]; cbn; auto; repeat split; intros ? []|].
    intros (H1 & _ & H2). destruct a as [t r]. cbn in *. rewrite H1, (H2 eq_refl). reflexivity.
  - match goal with |- context [if ?c then _ else _] => destruct c eqn:E end.
    + rewrite forallb_forall in E. split.
      * intros [= <-]. cbn [arows atail]. repeat split; [|discriminate].
        intros y Hy. specialize (E y Hy).
        destruct (list_eq_dec Nat.eq_dec (i_shape y) (i_shape x)); [assumption|discriminate].
      * intros (H1 & H2 & _). destruct a as [t r]. cbn [arows atail] in *.
        rewrite H1, (H2 x (or_introl eq_refl)). reflexivity.
    + split; [discriminate|]. intros (_ & H & _).
      enough (forallb (fun y => if list_eq_dec Nat.eq_dec (i_shape y) (i_shape x) then true else false)
                (x :: xs) = true) by congruence.
      apply forallb_forall. intros y Hy. rewrite (H y Hy), (H x (or_introl eq_refl)).
      destruct (list_eq_dec Nat.eq_dec (atail a) (atail a)); congruence.
Qed.

Lemma np_array_cases {V} (xs : list (item V)) : (exists a, np_array xs = Ok a) \/ np_array xs = Err ValueError.
Proof. unfold np_array. destruct xs; [eauto|]. match goal with |- context [if ?c then _ else _] => destruct c end; eauto. Qed.

(** the conditioning entry is found and removed *)
Lemma conditioning_split {V G} to_int (pre post : list (arr V)) c idx (dists : list (dist V G)) g :
  position (List.length (pre ++ c :: post)) idx (List.length pre) ->
  categorical_conditioning to_int (pre ++ c :: post) idx dists g =
  match cond_loop to_int (pre ++ post) dists (arows c) 0 g with
  | (Ok xs, g1) => ((pre ++ post, np_array xs), g1)
  | (Err e, g1) => ((pre ++ post, Err e), g1)
  end.
Proof.
  intros Hp. unfold categorical_conditioning.
  assert (Hlt : (Z.of_nat (List.length (pre ++ c :: post)) <=? idx)%Z = false).
  { apply Z.leb_gt. destruct Hp as [H1 H2]. lia. }
  rewrite Hlt. pose proof (proj2 (norm_index_position _ _ _) Hp) as En. rewrite En.
  rewrite nth_error_app2, Nat.sub_diag by lia. cbn [nth_error].
  assert (Hd : delete_at (List.length pre) (pre ++ c :: post) = pre ++ post).
  { unfold delete_at. rewrite firstn_app, Nat.sub_diag, firstn_all, firstn_O, app_nil_r.
    f_equal. rewrite skipn_app.
    rewrite skipn_all2 by lia. replace (S (List.length pre) - List.length pre) with 1 by lia. reflexivity. }
  rewrite Hd. destruct (cond_loop to_int (pre ++ post) dists (arows c) 0 g) as [[?|?] ?]; reflexivity.
Qed.
