(** Proofs about arms whose columns leave a path open. *)
From Coq Require Import List Arith ZArith Bool String Reals Lra Lia.
From Verif Require Import PyBase DataModel ScmModel ScmProofs ScmProps PaperModel PaperSpec PaperProofs PaperProofs3
  ScmSpec LawSpec LawProofs LawProofs2 LawProofs3 LawProofs4.
Import ListNotations.
Open Scope nat_scope.
Open Scope list_scope.

Lemma pmean_app {A} (KV : nat -> law A) KZ l1 l2 : forall F,
  pmean KV KZ (l1 ++ l2) F = pmean KV KZ l1 (fun vs zs => pmean KV KZ l2 (fun vs' zs' => F (vs ++ vs') (zs ++ zs'))).
Proof.
  induction l1 as [|i l1 IH]; intro F; cbn [app pmean]; [reflexivity|].
  apply mean_ext. intro v. apply mean_ext. intro z. apply IH.
Qed.

Lemma gen_loop_all {V G} (P : string -> arr V -> Prop) (s : scm V G) n :
  (forall v f args g a g', sget (s_cpds s) v = Some f -> f n args g = (Ok a, g') -> P v a) ->
  forall vs sm g r, (forall v a, sget sm v = Some a -> P v a) -> fst (gen_loop s n vs sm g) = Ok r ->
  forall v a, sget r v = Some a -> P v a.
Proof.
  intro Hf. induction vs as [|u vs IH]; intros sm g r Hsm Er; cbn [gen_loop] in Er.
  - injection Er as <-. exact Hsm.
  - destruct (sget (s_parents s) u); [|discriminate]. destruct (negb _); [discriminate|].
    destruct (mapM _ _) as [ar|]; [|discriminate]. destruct (sget (s_cpds s) u) as [h|] eqn:Eh; [|discriminate].
    destruct (h n ar g) as ([b|], g1) eqn:Eb; [|discriminate]. refine (IH _ _ _ _ Er).
    intros v a. destruct (String.eqb_spec v u) as [->|Hne].
    + rewrite sget_same. intros [= <-]. eapply Hf; eassumption.
    + rewrite sget_other by exact Hne. apply Hsm.
Qed.
Lemma gen_loop_n {V G} (s : scm V G) n n' :
  (forall v f, sget (s_cpds s) v = Some f -> f n = f n') ->
  forall vs sm g, gen_loop s n vs sm g = gen_loop s n' vs sm g.
Proof.
  intro Hf. induction vs as [|u vs IH]; intros sm g; cbn [gen_loop]; [reflexivity|].
  destruct (sget (s_parents s) u); [|reflexivity]. destruct (negb _); [reflexivity|].
  destruct (mapM _ _) as [ar|]; [|reflexivity]. destruct (sget (s_cpds s) u) as [h|] eqn:Eh; [|reflexivity].
  rewrite (Hf u h Eh). destruct (h n' ar g) as ([b|], g1); [|reflexivity]. apply IH.
Qed.

Definition four : law nat := [(0, (1/4)%R); (1, (1/4)%R); (2, (1/4)%R); (3, (1/4)%R)].
Lemma four_law : is_law four.
Proof.
  split.
  - intros a p H. cbn in H. repeat (destruct H as [[= <- <-]|H]; [lra|]). destruct H.
  - cbn. lra.
Qed.
Lemma tapes_inhabited k : exists g p, In (g, p) (tapes four k).
Proof.
  induction k as [|k (g & p & IH)]; [exists [], 1%R; now left|].
  exists (0 :: g), ((1/4) * p)%R. cbn [tapes four flat_map]. apply in_or_app. left.
  change ((0 :: g, (1 / 4 * p)%R)) with ((fun tq : list nat * R => (0 :: fst tq, ((1/4) * snd tq)%R)) (g, p)). now apply in_map.
Qed.

Section Open.
  Context {V : Type} (c0 c1 : V) (eqb : arr V -> arr V -> bool) (zd vd : list nat) (m i0 cv cz : nat).
  Hypothesis Hc : c0 <> c1.
  Hypothesis Heq : decides eqb.
  Hypothesis Hi : 1 <= i0 <= m.
  Hypothesis Hcv : cv < nth i0 vd 0.
  Hypothesis Hcz : cz < nth i0 zd 0.
  Notation A := (arr V).

  (** the declared number of columns of a variable, and the column that varies *)
  Definition width (v : string) : nat :=
    match find (fun i => String.eqb v (Vn i)) (seq 1 m) with
    | Some i => nth i vd 0
    | None => match find (fun i => String.eqb v (Zn i)) (seq 0 (S m)) with Some i => nth i zd 0 | None => 1 end
    end.
  Definition spot (v : string) : nat :=
    if String.eqb v (Vn i0) then cv else if String.eqb v (Zn i0) then cz
    else if String.eqb v "X" || String.eqb v "Y" then 0 else width v.
  Definition tail_of (v : string) : list nat := if String.eqb v "X" || String.eqb v "Y" then [] else [width v].
  Definition val (v : string) (b : bool) : A :=
    mkArr (tail_of v) [map (fun c => if b && (c =? spot v) then c1 else c0) (seq 0 (width v))].
  Definition bit (v : string) (a : A) : bool := eqb a (val v true).

  Lemma find_inj (f : nat -> string) i l : (forall x y, f x = f y -> x = y) -> In i l -> find (fun j => String.eqb (f i) (f j)) l = Some i.
  Proof.
    clear. intros Hf. induction l as [|x l IH]; intros []; cbn [find].
    - subst. now rewrite String.eqb_refl.
    - destruct (String.eqb_spec (f i) (f x)) as [E|_]; [apply Hf in E; congruence|now apply IH].
  Qed.
  Lemma find_never {X} (p : X -> bool) l : (forall x, p x = false) -> find p l = None.
  Proof. clear. intro H. induction l as [|x l IH]; cbn [find]; [reflexivity|]. now rewrite H. Qed.
  Lemma width_V i : 1 <= i <= m -> width (Vn i) = nth i vd 0.
  Proof.
    clear. intro Hi. unfold width. rewrite (find_inj Vn i (seq 1 m) Vn_inj) by (apply in_seq; lia). reflexivity.
  Qed.
  Lemma width_Z i : i <= m -> width (Zn i) = nth i zd 0.
  Proof.
    clear. intro Hi. unfold width. rewrite find_never by reflexivity.
    rewrite (find_inj Zn i (seq 0 (S m)) Zn_inj) by (apply in_seq; lia). reflexivity.
  Qed.
  Lemma width_X : width "X" = 1.
  Proof. clear. unfold width. now rewrite !find_never. Qed.
  Lemma width_Y : width "Y" = 1.
  Proof. clear. unfold width. now rewrite !find_never. Qed.
  Lemma spot_V i : spot (Vn i) = if i =? i0 then cv else width (Vn i).
  Proof.
    clear. unfold spot. destruct (Nat.eqb_spec i i0) as [->|Hn]; [now rewrite String.eqb_refl|].
    destruct (String.eqb_spec (Vn i) (Vn i0)) as [E|_]; [apply Vn_inj in E; contradiction|reflexivity].
  Qed.
  Lemma spot_Z i : spot (Zn i) = if i =? i0 then cz else width (Zn i).
  Proof.
    clear. unfold spot. change (String.eqb (Zn i) (Vn i0)) with false. cbv iota.
    destruct (Nat.eqb_spec i i0) as [->|Hn]; [now rewrite String.eqb_refl|].
    destruct (String.eqb_spec (Zn i) (Zn i0)) as [E|_]; [apply Zn_inj in E; contradiction|reflexivity].
  Qed.

  Lemma eqb_val v b b' : spot v < width v -> eqb (val v b) (val v b') = Bool.eqb b b'.
  Proof.
    intro Hs. apply eq_true_iff_eq. rewrite (Heq (val v b) (val v b')), Bool.eqb_true_iff.
    split; [|now intros ->]. intro E. unfold val in E. injection E as E.
    pose proof (f_equal (fun l => nth_error l (spot v)) E) as En. cbn beta in En. rewrite !nth_error_map in En.
    rewrite (nth_error_nth' (seq 0 (width v)) 0) in En by now rewrite seq_length. rewrite seq_nth in En by exact Hs.
    cbn [option_map Nat.add] in En. rewrite Nat.eqb_refl in En. injection En as En. destruct b, b'; cbn in En; congruence.
  Qed.
  Lemma bit_val v b : spot v < width v -> bit v (val v b) = b.
  Proof. intro H. unfold bit. rewrite eqb_val by exact H. now destruct b. Qed.
  Lemma val_const v b : spot v = width v -> val v b = val v false.
  Proof.
    intro H. unfold val. do 2 f_equal. apply map_ext_in. intros c Hin. apply in_seq in Hin.
    destruct (Nat.eqb_spec c (spot v)); [lia|]. now rewrite andb_false_r.
  Qed.
  Lemma val_rows v b : List.length (arows (val v b)) = 1.
  Proof. reflexivity. Qed.
  Lemma val_shaped v b : String.eqb v "X" || String.eqb v "Y" = false -> shaped (width v) (val v b).
  Proof.
    intro H. unfold val, tail_of. rewrite H. split; [reflexivity|constructor; [now rewrite map_length, seq_length|constructor]].
  Qed.
  Lemma val_cell v b c u : c <> spot v -> nth_error (row (val v b) u) c = nth_error (row (val v false) u) c.
  Proof.
    intro H. unfold row, val. cbn [arows]. destruct u as [|[|u]]; cbn [nth]; trivial.
    rewrite !nth_error_map. destruct (nth_error (seq 0 (width v)) c) as [c'|] eqn:E; [|reflexivity].
    assert (Hc' : c < width v) by (rewrite <- (seq_length (width v) 0); apply nth_error_Some; congruence).
    rewrite (nth_error_nth' (seq 0 (width v)) 0) in E by now rewrite seq_length. rewrite seq_nth in E by exact Hc'.
    injection E as <-. cbn [option_map Nat.add]. destruct (Nat.eqb_spec c (spot v)); [contradiction|]. now rewrite andb_false_r.
  Qed.

  Lemma spot_X0 : spot "X" < width "X". Proof. rewrite width_X. cbn. lia. Qed.
  Lemma spot_Y0 : spot "Y" < width "Y". Proof. rewrite width_Y. cbn. lia. Qed.
  Lemma spot_V0 : spot (Vn i0) < width (Vn i0). Proof. rewrite spot_V, Nat.eqb_refl, width_V by exact Hi. exact Hcv. Qed.
  Lemma spot_Z0 : spot (Zn i0) < width (Zn i0). Proof. rewrite spot_Z, Nat.eqb_refl, width_Z by lia. exact Hcz. Qed.

  (** one column of V_i0 is a fair coin, one column of Z_i0 a copy of it, X a copy with probability
      3/4, Y a copy of the column of Z_i0; everything else is constant *)
  Definition phi_of (v : string) : option (list A -> nat -> A) :=
    if String.eqb v "X" then Some (fun args w => let b := bit (Vn i0) (nth (i0 - 1) args (val "X" false)) in val "X" (if w =? 3 then negb b else b))
    else if String.eqb v "Y" then Some (fun args _ => val "Y" (bit (Zn i0) (nth i0 args (val "X" false))))
    else if String.eqb v (Vn i0) then Some (fun _ w => val (Vn i0) (Nat.odd w))
    else if String.eqb v (Zn i0) then Some (fun args _ => val (Zn i0) (bit (Vn i0) (nth 0 args (val "X" false))))
    else None.
  Definition cpd_of (v : string) : cpd V (list nat) := fun _ args g =>
    match phi_of v with
    | Some phi => match g with w :: g' => (Ok (phi args w), g') | [] => (Err OracleError, []) end
    | None => (Ok (val v false), g)
    end.
  Definition K_of (v : string) (args : list A) : law A :=
    match phi_of v with
    | Some phi => map (fun wp => (phi args (fst wp), snd wp)) four
    | None => [(val v false, 1%R)]
    end.
  Definition open_cpds : sdict (cpd V (list nat)) := map (fun v => (v, cpd_of v)) (paper_vars m).

  Lemma draws_of n v : draws four n (cpd_of v) (K_of v).
  Proof.
    unfold draws, cpd_of, K_of. destruct (phi_of v) as [phi|].
    - left. exists phi. split; reflexivity.
    - right. exists (val v false). split; reflexivity.
  Qed.
  Lemma sget_open v : paper_var m v -> sget open_cpds v = Some (cpd_of v).
  Proof.
    intro H. apply paper_vars_in in H. unfold open_cpds. induction (paper_vars m) as [|u l IH]; [destruct H|].
    cbn [map sget]. destruct (String.eqb_spec v u) as [->|Hn]; [reflexivity|]. apply IH. destruct H; [congruence|assumption].
  Qed.
  Lemma open_draws n v f : paper_var m v -> entry open_cpds v f -> draws four n f (K_of v).
  Proof. intros Hv He. apply entry_sget in He. rewrite (sget_open v Hv) in He. injection He as <-. apply draws_of. Qed.
  Lemma open_scm : exists s, paper_scm m open_cpds = Ok s.
  Proof.
    destruct (paper_scm_ok m open_cpds) as (s & E & _); [|eauto].
    intros v Hv. exists (cpd_of v). apply entry_sget, sget_open, Hv.
  Qed.

  Lemma phi_V i : phi_of (Vn i) = if i =? i0 then Some (fun _ w => val (Vn i0) (Nat.odd w)) else None.
  Proof.
    unfold phi_of. change (String.eqb (Vn i) "X") with false. change (String.eqb (Vn i) "Y") with false.
    destruct (Nat.eqb_spec i i0) as [->|Hn]; [now rewrite String.eqb_refl|].
    destruct (String.eqb_spec (Vn i) (Vn i0)) as [E|_]; [apply Vn_inj in E; contradiction|].
    destruct (String.eqb_spec (Vn i) (Zn i0)) as [E|_]; [discriminate E|reflexivity].
  Qed.
  Lemma phi_Z i : phi_of (Zn i) = if i =? i0 then Some (fun args _ => val (Zn i0) (bit (Vn i0) (nth 0 args (val "X" false)))) else None.
  Proof.
    unfold phi_of. change (String.eqb (Zn i) "X") with false. change (String.eqb (Zn i) "Y") with false.
    destruct (String.eqb_spec (Zn i) (Vn i0)) as [E|_]; [discriminate E|].
    destruct (Nat.eqb_spec i i0) as [->|Hn]; [now rewrite String.eqb_refl|].
    destruct (String.eqb_spec (Zn i) (Zn i0)) as [E|_]; [apply Zn_inj in E; contradiction|reflexivity].
  Qed.

  Lemma KV_other i : i <> i0 -> KV K_of i = [(val (Vn i) false, 1%R)].
  Proof. intro H. unfold KV, K_of. rewrite phi_V. now destruct (Nat.eqb_spec i i0). Qed.
  Lemma KZ_other i v : i <> i0 -> KZ K_of i v = [(val (Zn i) false, 1%R)].
  Proof. intro H. unfold KZ, K_of. rewrite phi_Z. now destruct (Nat.eqb_spec i i0). Qed.
  Definition all_v (l : list nat) (b : bool) : list A := map (fun i => val (Vn i) b) l.
  Definition all_z (l : list nat) (b : bool) : list A := map (fun i => val (Zn i) b) l.
  Lemma all_v_other l b : (forall i, In i l -> i <> i0) -> all_v l b = all_v l false.
  Proof. intro H. apply map_ext_in. intros i Hin. apply val_const. rewrite spot_V. specialize (H i Hin). now destruct (Nat.eqb_spec i i0). Qed.
  Lemma all_z_other l b : (forall i, In i l -> i <> i0) -> all_z l b = all_z l false.
  Proof. intro H. apply map_ext_in. intros i Hin. apply val_const. rewrite spot_Z. specialize (H i Hin). now destruct (Nat.eqb_spec i i0). Qed.
  Lemma pm_point l : forall F, (forall i, In i l -> i <> i0) -> pmean (KV K_of) (KZ K_of) l F = F (all_v l false) (all_z l false).
  Proof.
    induction l as [|i l IH]; intros F Hl; [reflexivity|]. cbn [pmean]. rewrite KV_other by (apply Hl; now left). cbn [mean].
    rewrite KZ_other by (apply Hl; now left). cbn [mean]. rewrite IH by (intros; apply Hl; now right). unfold all_v, all_z. cbn [map]. lra.
  Qed.

  Lemma nth_v b d : nth (i0 - 1) (all_v (seq 1 m) b) d = val (Vn i0) b.
  Proof.
    unfold all_v. rewrite (nth_indep _ _ (val (Vn 0) b)) by (rewrite map_length, seq_length; lia).
    rewrite (map_nth (fun i => val (Vn i) b)), seq_nth by lia. do 2 f_equal. lia.
  Qed.
  Lemma nth_z b a d : nth i0 (a :: all_z (seq 1 m) b) d = val (Zn i0) b.
  Proof.
    replace i0 with (S (i0 - 1)) at 1 by lia. cbn [nth].
    unfold all_z. rewrite (nth_indep _ _ (val (Zn 0) b)) by (rewrite map_length, seq_length; lia).
    rewrite (map_nth (fun i => val (Zn i) b)), seq_nth by lia. do 2 f_equal. lia.
  Qed.

  Lemma pm_all F : pmean (KV K_of) (KZ K_of) (seq 1 m) F =
    ((F (all_v (seq 1 m) false) (all_z (seq 1 m) false) + F (all_v (seq 1 m) true) (all_z (seq 1 m) true)) / 2)%R.
  Proof.
    replace (seq 1 m) with (seq 1 (i0 - 1) ++ i0 :: seq (S i0) (m - i0)).
    2: { replace (seq 1 m) with (seq 1 ((i0 - 1) + (1 + (m - i0)))) by (f_equal; lia).
         rewrite seq_app. f_equal. cbn [seq Nat.add]. f_equal; [lia|]. f_equal. lia. }
    assert (H1 : forall i, In i (seq 1 (i0 - 1)) -> i <> i0) by (intros i Hin; apply in_seq in Hin; lia).
    assert (H2 : forall i, In i (seq (S i0) (m - i0)) -> i <> i0) by (intros i Hin; apply in_seq in Hin; lia).
    rewrite pmean_app, pm_point by exact H1. cbn [pmean].
    assert (E : forall b F', mean (KZ K_of i0 (val (Vn i0) b)) F' = F' (val (Zn i0) b)).
    { intros b F'. unfold KZ, K_of. rewrite phi_Z, Nat.eqb_refl. cbn [map four mean fst snd nth].
      rewrite !bit_val by exact spot_V0. lra. }
    assert (E2 : forall F', mean (KV K_of i0) F' = ((F' (val (Vn i0) false) + F' (val (Vn i0) true)) / 2)%R).
    { intro F'. unfold KV, K_of. rewrite phi_V, Nat.eqb_refl. cbn [map four mean fst snd].
      change (Nat.odd 0) with false. change (Nat.odd 1) with true. change (Nat.odd 2) with false. change (Nat.odd 3) with true. lra. }
    rewrite E2, !E, !pm_point by exact H2.
    assert (Ev : forall b, all_v (seq 1 (i0 - 1) ++ i0 :: seq (S i0) (m - i0)) b = all_v (seq 1 (i0 - 1)) false ++ val (Vn i0) b :: all_v (seq (S i0) (m - i0)) false).
    { intro b. rewrite <- (all_v_other _ b H1), <- (all_v_other _ b H2). unfold all_v. rewrite map_app. reflexivity. }
    assert (Ez : forall b, all_z (seq 1 (i0 - 1) ++ i0 :: seq (S i0) (m - i0)) b = all_z (seq 1 (i0 - 1)) false ++ val (Zn i0) b :: all_z (seq (S i0) (m - i0)) false).
    { intro b. rewrite <- (all_z_other _ b H1), <- (all_z_other _ b H2). unfold all_z. rewrite map_app. reflexivity. }
    rewrite !Ev, !Ez. reflexivity.
  Qed.

  Definition resp (o : option A) : R := match o with Some a => if bit "Y" a then 1%R else 0%R | None => 0%R end.

  Lemma q_all a b : q eqb K_of (val "X" a) (all_v (seq 1 m) b) = if Bool.eqb a b then (3/4)%R else (1/4)%R.
  Proof.
    unfold q, K_of. change (phi_of "X") with (Some (fun (args : list A) w => let b := bit (Vn i0) (nth (i0 - 1) args (val "X" false)) in val "X" (if w =? 3 then negb b else b))).
    cbn [map four mean fst snd]. cbn zeta. rewrite nth_v, bit_val, !eqb_val by (exact spot_V0 || exact spot_X0). cbn [Nat.eqb].
    destruct a, b; cbn [Bool.eqb negb ind]; lra.
  Qed.
  Lemma mu_all a b : mu K_of resp a (all_z (seq 1 m) b) = if b then 1%R else 0%R.
  Proof.
    unfold mu. assert (E0 : K_of "Z0" [a] = [(val "Z0" false, 1%R)]).
    { unfold K_of. rewrite <- Z0_Zn, phi_Z. destruct (Nat.eqb_spec 0 i0); [lia|reflexivity]. }
    rewrite E0. cbn [mean]. unfold K_of.
    change (phi_of "Y") with (Some (fun (args : list A) (_ : nat) => val "Y" (bit (Zn i0) (nth i0 args (val "X" false))))).
    cbn [map four mean fst snd]. rewrite nth_z, !bit_val by exact spot_Z0. unfold resp. rewrite bit_val by exact spot_Y0. destruct b; lra.
  Qed.

  (** *** its samples *)
  Context (k : nat) (s : scm V (list nat)).
  Hypothesis Hk : 2 * m + 3 <= k.
  Hypothesis Hs : paper_scm m open_cpds = Ok s.
  Notation T := (tapes four k).
  Notation E := (drawn s 1).

  Lemma open_entry v f : sget (s_cpds s) v = Some f -> f = cpd_of v.
  Proof.
    destruct (paper_scm_like m _ s Hs) as (_ & Ec & _). rewrite Ec. unfold open_cpds.
    induction (paper_vars m) as [|u l IH]; [discriminate|]. cbn [map sget].
    destruct (String.eqb_spec v u) as [->|_]; [now intros [= <-]|exact IH].
  Qed.
  Lemma open_value v f n args g a g' : sget (s_cpds s) v = Some f -> f n args g = (Ok a, g') -> exists b, a = val v b.
  Proof.
    intros Hf. rewrite (open_entry v f Hf). unfold cpd_of. destruct (phi_of v) as [phi|] eqn:Ep.
    - destruct g as [|w g]; [discriminate|]. intros [= <- _]. unfold phi_of in Ep.
      repeat match type of Ep with (if String.eqb v ?x then _ else _) = _ => destruct (String.eqb_spec v x) as [->|] end;
        try discriminate Ep; injection Ep as <-; eauto.
    - intros [= <- _]. eauto.
  Qed.
  Lemma open_drawn g p v a : In (g, p) T -> E g v = Some a -> exists b, a = val v b.
  Proof.
    intro Hin.
    destruct (paper_scm_like m _ s Hs) as ((Ev & Ht & E0 & EX & EY & EV & EZ) & Ec & _).
    assert (Hf0 : forall v, In v (s_vars s) -> fits four s 1 K_of (pa_of s) v).
    { intros u Hu. rewrite Ev in Hu. apply paper_vars_in in Hu.
      split; [|exact (Hdraws four 1 m _ s _ Hs (open_draws 1) u Hu)].
      unfold pa_of. destruct Hu; rewrite ?E0, ?EX, ?EY, ?EV, ?EZ by assumption; reflexivity. }
    destruct (gen_runs four s 1 _ (pa_of s) (s_vars s) [] g Hf0) as (r & Er).
    - intros pre u post p' E1 Hp. right. apply (Ht pre u post p' E1). exists (pa_of s u). split; [|exact Hp].
      apply entry_sget. apply Hf0. rewrite E1. apply in_elt.
    - rewrite (tapes_length four k g p Hin), Ev, (paper_vars_length m k Hk). exact Hk.
    - rewrite (drawn_loop s 1 g r Er). revert v a.
      apply (gen_loop_all (fun v a => exists b, a = val v b) s 1) with (vs := s_vars s) (sm := []) (g := g); trivial.
      + intros v f args g' a g'' Hf Ha. eapply open_value; eassumption.
      + intros v a [=].
  Qed.

  Lemma open_regular : regular T s 1 m zd vd.
  Proof.
    intros g p Hin.
    assert (Hb : forall v a, E g v = Some a -> (String.eqb v "X" || String.eqb v "Y" = false -> shaped (width v) a) /\ List.length (arows a) = 1).
    { intros v a Ha. destruct (open_drawn g p v a Hin Ha) as (b & ->). split; [apply val_shaped|apply val_rows]. }
    split; [split; [|split]|].
    - intros a Ha. rewrite <- (width_Z 0) by lia. rewrite Z0_Zn. exact (proj1 (Hb _ _ Ha) eq_refl).
    - intros i a Hi' Ha. rewrite <- (width_Z i) by lia. exact (proj1 (Hb _ _ Ha) eq_refl).
    - intros i a Hi' Ha. rewrite <- (width_V i) by lia. exact (proj1 (Hb _ _ Ha) eq_refl).
    - intros v b _ Ha. exact (proj2 (Hb _ _ Ha)).
  Qed.

  (** it runs for every number of units *)
  Lemma open_generates n : exists g d g', generate s n g = (Ok d, g').
  Proof.
    destruct (tapes_inhabited k) as (g & p & Hin).
    destruct (run_ok four 1 m k Hk _ s _ Hs (open_draws 1) zd vd open_regular g p Hin) as (d & g' & log & Hg & _).
    destruct (C21_calls s 1 g) as (log' & E1 & _). rewrite Hg in E1. destruct (generate s 1 g) as (r, g1) eqn:Eg.
    cbn [fst snd] in E1. injection E1 as <- _ _. exists g, d, g1. rewrite <- Eg. unfold generate.
    rewrite (gen_loop_n s n 1); [reflexivity|]. intros v f Hf. rewrite (open_entry v f Hf). reflexivity.
  Qed.

  (** *** an arm that gets neither of the two columns *)
  Context (j : nat).
  Hypothesis Hfit : dims_fit zd vd m.
  Hypothesis HnV : ~ gets zd vd m (arm_columns zd vd m j) (Vn i0) cv.
  Hypothesis HnZ : ~ gets zd vd m (arm_columns zd vd m j) (Zn i0) cz.
  Notation sees := (seen s 1 (arm_mask zd vd m j)).

  Lemma all_agree g p g' p' : In (g, p) T -> In (g', p') T -> same eqb (sees g) (sees g') = true.
  Proof.
    intros H H'. apply (same_iff eqb Heq).
    apply (seen_cells four 1 m k Hk _ s _ Hs (open_draws 1) zd vd open_regular j Hfit g p g' p' H H').
    intros v c Hg u Hu. destruct (gets_path zd vd m j v c Hg) as (i & Hi' & Hv).
    assert (Hpv : paper_var m v) by (destruct Hv as [(-> & _)|(-> & _)]; now constructor).
    destruct (E_some four 1 m k Hk _ s _ Hs (open_draws 1) g p v H Hpv) as (a & Ea).
    destruct (E_some four 1 m k Hk _ s _ Hs (open_draws 1) g' p' v H' Hpv) as (b & Eb).
    unfold cell_at. rewrite Ea, Eb.
    destruct (open_drawn g p v a H Ea) as (x & ->). destruct (open_drawn g' p' v b H' Eb) as (y & ->).
    assert (Hsp : c <> spot v).
    { destruct Hv as [(-> & Hcc)|(-> & Hcc)]; rewrite ?spot_V, ?spot_Z; destruct (Nat.eqb_spec i i0) as [->|_]; intros ->.
      - contradiction.
      - rewrite width_V in Hcc by exact Hi'. lia.
      - contradiction.
      - rewrite width_Z in Hcc by lia. lia. }
    now rewrite (val_cell v x c u Hsp), (val_cell v y c u Hsp).
  Qed.

  Notation treated b := (fun g => same eqb (Some (val "X" b)) (E g "X")).
  Notation agree := (fun g g' => same eqb (sees g) (sees g')).

  Lemma open_treated b : prob T (treated b) = (1/2)%R.
  Proof.
    unfold prob.
    rewrite (law_of four 1 m k four_law Hk open_cpds s K_of Hs (open_draws 1) (fun e => if same eqb (Some (val "X" b)) (e "X"%string) then 1%R else 0%R)).
    transitivity (pmean (KV K_of) (KZ K_of) (seq 1 m) (fun vs zs => (1 * q eqb K_of (val "X" b) vs)%R)).
    - rewrite <- (treated_any_law four 1 m eqb four_law open_cpds s K_of Hs (open_draws 1) (val "X" b) (fun _ _ => 1%R)).
      apply pmean_ext. intros vs zs _ _. apply mean_ext. intro x. apply mean_ext. intro z0. apply mean_ext. intro y.
      rewrite sget_full_X. cbn [same]. unfold ind. destruct (eqb (val "X" b) x); lra.
    - rewrite pm_all, !q_all. destruct b; cbn [Bool.eqb]; lra.
  Qed.
  Lemma open_treated_resp b : mean T (fun g => if same eqb (Some (val "X" b)) (E g "X") then resp (E g "Y") else 0%R) = (if b then 3/8 else 1/8)%R.
  Proof.
    rewrite (law_of four 1 m k four_law Hk open_cpds s K_of Hs (open_draws 1) (fun e => if same eqb (Some (val "X" b)) (e "X"%string) then resp (e "Y"%string) else 0%R)).
    transitivity (pmean (KV K_of) (KZ K_of) (seq 1 m) (fun vs zs => (1 * (q eqb K_of (val "X" b) vs * mu K_of resp (val "X" b) zs))%R)).
    - rewrite <- (treated_law m eqb Heq K_of resp (val "X" b) (fun _ _ => 1%R)).
      apply pmean_ext. intros vs zs _ _. apply mean_ext. intro x. apply mean_ext. intro z0. apply mean_ext. intro y.
      rewrite sget_full_X, sget_full_Y. cbn [same]. unfold ind. destruct (eqb (val "X" b) x); lra.
    - rewrite pm_all, !q_all, !mu_all. destruct b; cbn [Bool.eqb]; lra.
  Qed.

  Lemma given_open b g p : In (g, p) T ->
    prob T (fun g' => same eqb (Some (val "X" b)) (E g' "X") && same eqb (sees g) (sees g')) = (1/2)%R /\
    mean_given T (fun g' => same eqb (Some (val "X" b)) (E g' "X") && same eqb (sees g) (sees g')) (fun g => resp (E g "Y")) = (if b then 3/4 else 1/4)%R.
  Proof.
    intro Hin. assert (E1 : prob T (fun g' => same eqb (Some (val "X" b)) (E g' "X") && same eqb (sees g) (sees g')) = (1/2)%R).
    { rewrite <- (open_treated b). apply mean_ext_in. intros g' p' Hin'. now rewrite (all_agree g p g' p' Hin Hin'), andb_true_r. }
    split; [exact E1|]. unfold mean_given. rewrite E1.
    rewrite (mean_ext_in T _ (fun g => if same eqb (Some (val "X" b)) (E g "X") then resp (E g "Y") else 0%R)).
    - rewrite open_treated_resp. destruct b; lra.
    - intros g' p' Hin'. now rewrite (all_agree g p g' p' Hin Hin'), andb_true_r.
  Qed.

  Lemma open_overlap b : overlap T (treated b) agree.
  Proof. intros g p Hin _. destruct (given_open b g p Hin) as (H & _). rewrite H. lra. Qed.
  Lemma open_adjusted b : adjusted T (treated b) agree (fun g => resp (E g "Y")) = (if b then 3/4 else 1/4)%R.
  Proof.
    unfold adjusted. rewrite (mean_ext_in T _ (fun _ => (if b then 3/4 else 1/4)%R)).
    - apply mean_const. apply tapes_law, four_law.
    - intros g p Hin. exact (proj2 (given_open b g p Hin)).
  Qed.
  Lemma open_do a f s' : (forall args g, f 1 args g = (Ok a, g)) -> replaces s "X" f s' ->
    mean T (fun g => resp (drawn s' 1 g "Y")) = (1/2)%R.
  Proof.
    intros Hf Hr. rewrite (mean_do four 1 m k four_law Hk open_cpds s K_of Hs (open_draws 1) resp a f s' Hf Hr).
    rewrite pm_all, !mu_all. lra.
  Qed.
End Open.

(** without [covers] some path lacks a column of V_i and a column of Z_i *)
Lemma not_covers zd vd m cols : ~ covers zd vd m cols -> exists i cv cz, 1 <= i <= m /\ cv < nth i vd 0 /\ cz < nth i zd 0 /\
  ~ gets zd vd m cols (Vn i) cv /\ ~ gets zd vd m cols (Zn i) cz.
Proof.
  intro H.
  assert (Hone : forall v d, all_of zd vd m cols v d = false -> exists c, c < d /\ ~ gets zd vd m cols v c).
  { intros v d E. unfold all_of in E. 
    destruct (existsb (fun c => negb (getsb zd vd m cols v c)) (seq 0 d)) eqn:Ex.
    - apply existsb_exists in Ex as (c & Hc & Hn). apply in_seq in Hc. exists c. split; [lia|].
      intro Hg. apply getsb_iff in Hg. rewrite Hg in Hn. discriminate.
    - exfalso. assert (forallb (getsb zd vd m cols v) (seq 0 d) = true); [|congruence].
      apply forallb_forall. intros c Hc. destruct (getsb zd vd m cols v c) eqn:Eg; [reflexivity|].
      assert (existsb (fun c => negb (getsb zd vd m cols v c)) (seq 0 d) = true); [|congruence].
      apply existsb_exists. exists c. split; [exact Hc|]. now rewrite Eg. }
  destruct (existsb (fun i => negb (all_of zd vd m cols (Vn i) (nth i vd 0)) && negb (all_of zd vd m cols (Zn i) (nth i zd 0))) (seq 1 m)) eqn:Ex.
  - apply existsb_exists in Ex as (i & Hi & Hb). apply in_seq in Hi. apply andb_prop in Hb as (H1 & H2).
    apply negb_true_iff in H1, H2. destruct (Hone _ _ H1) as (cv & Hv & Gv). destruct (Hone _ _ H2) as (cz & Hz & Gz).
    exists i, cv, cz. repeat split; trivial; lia.
  - exfalso. apply H. intros i Hi.
    destruct (all_of zd vd m cols (Vn i) (nth i vd 0)) eqn:Ev; [left; now apply all_of_iff|].
    destruct (all_of zd vd m cols (Zn i) (nth i zd 0)) eqn:Ez; [right; now apply all_of_iff|].
    exfalso. assert (existsb (fun i => negb (all_of zd vd m cols (Vn i) (nth i vd 0)) && negb (all_of zd vd m cols (Zn i) (nth i zd 0))) (seq 1 m) = true); [|congruence].
    apply existsb_exists. exists i. split; [apply in_seq; lia|]. now rewrite Ev, Ez.
Qed.
