(** Lemmas for NbProps2.v: the loop over instances. *)
From Coq Require Import List Arith ZArith Lia Bool Sorting.Sorted.
From Verif Require Import PyBase PyLemmas NbModel NbSpec.
Import ListNotations.
Open Scope nat_scope.

Lemma each_length n l : length (each n l) = length l * n.
Proof. induction l as [|i l IH]; [reflexivity|]. unfold each in *. cbn [flat_map length]. rewrite app_length, repeat_length, IH. lia. Qed.
Lemma each_app n l l' : each n (l ++ l') = each n l ++ each n l'.
Proof. apply flat_map_app. Qed.

Section Loop.
  Context {S : Type} (probe : nat -> S -> res bool * S) (repetition : nat -> nat -> S -> res (nat * nat * nat) * S).
  Variables (ni nr : nat).
  Notation reps := (repetitions repetition).
  Variable P : nat -> nat -> nat * nat * nat -> Prop.
  Hypothesis HP : forall i m st n st', repetition i m st = (Ok n, st') -> P i m n.

  Definition aligned (x : lists S) : Prop := same_length x /\ entries_match nr P x.

  (** repetitions m, m+1, ... of one instance *)
  Lemma reps_spec i : forall k m q x, m + k = nr -> aligned x -> length (l_lucb x) = q * nr + m -> length (l_history x) = q * nr + m ->
    match reps i (seq m k) x with
    | (x', None) => aligned x' /\ length (l_lucb x') = q * nr + nr /\ l_history x' = l_history x ++ repeat i k /\ l_next x' = l_next x
    | (x', Some _) => aligned x' /\ length (l_history x') = Datatypes.S (length (l_lucb x')) /\ length (l_lucb x') < q * nr + nr /\ l_next x' = l_next x /\
        exists j, j < k /\ l_history x' = l_history x ++ repeat i (Datatypes.S j)
    end.
  Proof.
    induction k as [|k IH]; intros m q x Hm Ha Hl Hh; cbn [seq repetitions].
    - split; [exact Ha|]. split; [lia|]. split; [now rewrite app_nil_r|reflexivity].
    - destruct (repetition i m (l_rest x)) as [[[[a b] c]|e] st] eqn:E.
      + set (x1 := mkLists (l_lucb x ++ [a]) (l_se x ++ [b]) (l_uniform x ++ [c]) (l_history x ++ [i]) (l_next x) st).
        assert (Ha1 : aligned x1).
        { destruct Ha as ((Hs1 & Hs2) & He). split; [split; cbn; rewrite !app_length; cbn; lia|]. intros j i' Hj Hlt. cbn in *. rewrite app_length in Hlt. cbn in Hlt.
          destruct (Nat.eq_dec j (length (l_lucb x))) as [->|Hne].
          - rewrite nth_error_app2 in Hj by lia. replace (length (l_lucb x) - length (l_history x)) with 0 in Hj by lia. injection Hj as <-.
            exists a, b, c. rewrite !nth_error_app2 by lia. rewrite Nat.sub_diag. replace (length (l_lucb x) - length (l_se x)) with 0 by lia.
            replace (length (l_lucb x) - length (l_uniform x)) with 0 by lia. do 3 (split; [reflexivity|]).
            replace (length (l_lucb x) mod nr) with m; [eapply HP, E|]. rewrite Hl, Nat.add_comm, Nat.mod_add by lia. symmetry. apply Nat.mod_small. lia.
          - rewrite nth_error_app1 in Hj by lia. destruct (He j i' Hj ltac:(lia)) as (a' & b' & c' & H1 & H2 & H3 & H4). exists a', b', c'.
            rewrite !nth_error_app1 by lia. auto. }
        specialize (IH (Datatypes.S m) q x1 ltac:(lia) Ha1). cbn [x1 l_lucb l_history] in IH. rewrite !app_length in IH. cbn [length] in IH.
        specialize (IH ltac:(lia) ltac:(lia)). fold x1 in IH |- *. destruct (reps i (seq (Datatypes.S m) k) x1) as [x' [e|]].
        * destruct IH as (H1 & H2 & H3 & H4 & j & Hj & H5). split; [exact H1|]. split; [exact H2|]. split; [exact H3|]. split; [exact H4|].
          exists (Datatypes.S j). split; [lia|]. rewrite H5, <- app_assoc. reflexivity.
        * destruct IH as (H1 & H2 & H3 & H4). split; [exact H1|]. split; [exact H2|]. split; [|exact H4]. rewrite H3, <- app_assoc. reflexivity.
      + destruct Ha as (Hs & He). cbn. split; [split; [exact Hs|]|].
        * intros j i' Hj Hlt. cbn in *. rewrite nth_error_app1 in Hj by lia. apply He; assumption.
        * rewrite app_length. cbn. split; [lia|]. split; [lia|]. split; [reflexivity|]. exists 0. split; [lia|reflexivity].
  Qed.

  (** at the head of the while loop: the instances accepted so far *)
  Definition head (acc : list nat) (x : lists S) : Prop :=
    aligned x /\ length (l_lucb x) = length acc * nr /\ l_history x = each nr acc /\
    StronglySorted lt acc /\ (forall i, In i acc -> i < l_next x) /\ length acc <= ni.

  Lemma head_start st : head [] (mkLists [] [] [] [] 0 st).
  Proof.
    split; [split; [split; reflexivity|intros [|k] i H; discriminate]|]. split; [reflexivity|]. split; [reflexivity|]. split; [constructor|]. split; [contradiction|cbn; lia].
  Qed.

  Lemma sorted_snoc (l : list nat) n : StronglySorted lt l -> (forall i, In i l -> i < n) -> StronglySorted lt (l ++ [n]).
  Proof.
    induction 1 as [|y l Hs IH Hy]; intros H; cbn [app]; [repeat constructor|]. constructor; [apply IH; intros i Hi; apply H; now right|].
    rewrite Forall_forall in *. intros z Hz. apply in_app_iff in Hz as [Hz|[<-|[]]]; [now apply Hy|apply H; now left].
  Qed.

  Lemma step_spec acc x : 1 <= nr -> head acc x ->
    match experiment_step probe repetition ni nr x with
    | Finish _ x' => x' = x /\ length acc = ni
    | Continue x' => length acc < ni /\ exists ok st, probe (l_next x) (l_rest x) = (Ok ok, st) /\ l_next x' = Datatypes.S (l_next x) /\
        if ok : bool then head (acc ++ [l_next x]) x' else head acc x'
    | Fail e x' => length acc < ni /\ aligned x' /\
        (length (l_history x') = length (l_lucb x') \/ length (l_history x') = Datatypes.S (length (l_lucb x'))) /\
        ((exists st, probe (l_next x) (l_rest x) = (Err e, st)) \/ (exists m st st', repetition (l_next x) m st = (Err e, st')))
    end.
  Proof.
    intros Hnr (Ha & Hl & Hh & Hs & Hb & Hni). unfold experiment_step. destruct (Nat.ltb_spec (length (l_lucb x)) (ni * nr)) as [Hlt|Hge].
    2:{ split; [reflexivity|]. rewrite Hl in Hge. nia. }
    assert (Hlt' : length acc < ni) by nia.
    destruct (probe (l_next x) (l_rest x)) as [[ok|e] st] eqn:Ep.
    2:{ split; [exact Hlt'|]. split; [exact Ha|]. split; [left; cbn; rewrite Hh, each_length; lia|]. left. eauto. }
    set (x1 := mkLists (l_lucb x) (l_se x) (l_uniform x) (l_history x) (Datatypes.S (l_next x)) st).
    destruct ok.
    - pose proof (reps_spec (l_next x) nr 0 (length acc) x1 eq_refl Ha) as H. cbn [x1 l_lucb l_history] in H. rewrite Hh, each_length in H.
      specialize (H ltac:(lia) ltac:(lia)). fold x1 in H.
      assert (He : forall k m y y' e, reps (l_next x) (seq m k) y = (y', Some e) -> exists m st st', repetition (l_next x) m st = (Err e, st')).
      { induction k as [|k IH]; intros m y y' e E; [discriminate|]. cbn [seq repetitions] in E.
        destruct (repetition (l_next x) m (l_rest y)) as [[[[a b] c]|e'] st'] eqn:E'; [eapply IH, E|]. injection E as _ <-. eauto. }
      destruct (reps (l_next x) (seq 0 nr) x1) as [x' [e|]] eqn:Er.
      + destruct H as (H1 & H2 & _). split; [exact Hlt'|]. split; [exact H1|]. split; [now right|]. right. eapply He, Er.
      + destruct H as (H1 & H2 & H3 & H4). split; [exact Hlt'|]. exists true, st. split; [reflexivity|]. split; [exact H4|].
        split; [exact H1|]. rewrite app_length. cbn [length]. split; [lia|]. split; [rewrite H3, each_app; f_equal; unfold each; cbn [flat_map]; now rewrite app_nil_r|].
        split; [now apply sorted_snoc|]. split; [|lia]. intros i Hi. rewrite H4. cbn. apply in_app_iff in Hi as [Hi|[<-|[]]]; [specialize (Hb i Hi); lia|lia].
    - split; [exact Hlt'|]. exists false, st. split; [reflexivity|]. split; [reflexivity|].
      split; [exact Ha|]. split; [exact Hl|]. split; [exact Hh|]. split; [exact Hs|]. split; [|exact Hni]. intros i Hi. specialize (Hb i Hi). cbn. lia.
  Qed.

  Lemma run_spec : 1 <= nr -> forall fuel acc x, head acc x ->
    match loop fuel (experiment_step probe repetition ni nr) x with
    | Returned _ x' => exists acc', head acc' x' /\ length acc' = ni
    | Raised e x' => aligned x' /\ (length (l_history x') = length (l_lucb x') \/ length (l_history x') = Datatypes.S (length (l_lucb x')))
    | OutOfFuel x' => exists acc', head acc' x'
    end.
  Proof.
    intros Hnr. induction fuel as [|fuel IH]; intros acc x Hx; cbn [loop]; [eauto|]. pose proof (step_spec acc x Hnr Hx) as H.
    destruct (experiment_step probe repetition ni nr x) as [x'|u x'|e x'].
    - destruct H as (_ & ok & st & _ & _ & Hh). destruct ok; eapply IH; exact Hh.
    - destruct H as (-> & H). eauto.
    - destruct H as (_ & H1 & H2 & _). auto.
  Qed.

  (** ** a verdict that depends on the instance only *)
  Variable verdict : nat -> bool.
  Hypothesis Hv : forall i st, exists st', probe i st = (Ok (verdict i), st').
  Hypothesis Hr : forall i m st, exists n st', repetition i m st = (Ok n, st').
  Definition chosen (n : nat) : list nat := filter verdict (seq 0 n).

  Lemma chosen_S n : chosen (Datatypes.S n) = chosen n ++ (if verdict n then [n] else []).
  Proof. unfold chosen. rewrite seq_S, filter_app. cbn. reflexivity. Qed.

  Lemma chosen_mono n k : length (chosen n) <= length (chosen (n + k)).
  Proof. induction k as [|k IH]; [now rewrite Nat.add_0_r|]. rewrite Nat.add_succ_r, chosen_S, app_length. lia. Qed.

  Lemma step_verdict x : 1 <= nr -> head (chosen (l_next x)) x ->
    match experiment_step probe repetition ni nr x with
    | Finish _ x' => x' = x /\ length (chosen (l_next x)) = ni
    | Continue x' => length (chosen (l_next x)) < ni /\ l_next x' = Datatypes.S (l_next x) /\ head (chosen (l_next x')) x'
    | Fail e x' => False
    end.
  Proof.
    intros Hnr Hx. pose proof (step_spec _ x Hnr Hx) as H. destruct (experiment_step probe repetition ni nr x) as [x'|u x'|e x'].
    - destruct H as (Hlt & ok & st & E & Hn & Hh). split; [exact Hlt|]. split; [exact Hn|]. destruct (Hv (l_next x) (l_rest x)) as (st' & E'). rewrite E in E'. injection E' as -> _.
      rewrite Hn, chosen_S. destruct (verdict (l_next x)); [exact Hh|]. now rewrite app_nil_r.
    - exact H.
    - destruct H as (_ & _ & _ & [(st & E)|(m & st & st' & E)]).
      + destruct (Hv (l_next x) (l_rest x)) as (st' & E'). congruence.
      + destruct (Hr (l_next x) m st) as (n & st2 & E'). congruence.
  Qed.

  Lemma loop_verdict : 1 <= nr -> forall fuel x, head (chosen (l_next x)) x -> (0 < l_next x -> length (chosen (l_next x - 1)) < ni) ->
    match loop fuel (experiment_step probe repetition ni nr) x with
    | Returned _ x' => head (chosen (l_next x')) x' /\ length (chosen (l_next x')) = ni /\ (0 < l_next x' -> length (chosen (l_next x' - 1)) < ni)
    | Raised _ _ => False
    | OutOfFuel x' => head (chosen (l_next x')) x' /\ l_next x' = l_next x + fuel /\ (0 < l_next x' -> length (chosen (l_next x' - 1)) < ni)
    end.
  Proof.
    intros Hnr. induction fuel as [|fuel IH]; intros x Hx Hlow; cbn [loop]; [split; [exact Hx|]; split; [lia|exact Hlow]|]. pose proof (step_verdict x Hnr Hx) as H.
    destruct (experiment_step probe repetition ni nr x) as [x'|u x'|e x'].
    - destruct H as (Hlt & Hn & Hh). specialize (IH x' Hh). rewrite Hn, Nat.sub_succ, Nat.sub_0_r in IH. specialize (IH (fun _ => Hlt)).
      destruct (loop fuel _ x'); [exact IH|exact IH|]. destruct IH as (H1 & H2 & H3). split; [exact H1|]. split; [lia|exact H3].
    - destruct H as (-> & H). auto.
    - contradiction.
  Qed.
End Loop.
