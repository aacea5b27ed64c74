(** Arms change only by updates with data obtained from the generator or from a slice that
    starts at some arm's unit count. *)
From Coq Require Import List Arith ZArith Lia Bool.
From Verif Require Import PyBase PyLemmas Num NumLemmas BanditModel BanditSpec BanditProofs1 BanditProofs2 BanditProofs3 BanditProofs4 BanditProofs5.
Import ListNotations.
Open Scope nat_scope.

Section P.
  Context {A D G : Type} (ops : arm_ops A D G) (w : world D G) (cfg : config) (all : option D).
  Notation bstate := (bstate (A := A) (G := G)).
  Definition from_data (d : D) : Prop :=
    (exists a g g', get_data w cfg all (a_units ops a) g = (Ok d, g')) \/ (exists g g', get_data w cfg all 0 g = (Ok d, g')).
  Section Rel.
    Context (P : A -> A -> Prop) (Hrefl : forall a, P a a)
      (Hup : forall a0 a d delta g a' g' e, from_data d -> P a0 a -> a_update ops a d delta g = ((a', g'), e) -> P a0 a').

    Lemma pull_all_src d delta : from_data d -> forall arms0 arms g, Forall2 P arms0 arms ->
      Forall2 P arms0 (fst (fst (pull_all ops d delta arms g))).
    Proof.
      intros Hd arms0 arms g H. revert g. induction H as [|a0 a l0 l Ha Hl IH]; intros g; simpl; [constructor|].
      destruct (a_update ops a d delta g) as [[a' g1] [e|]] eqn:E; simpl; [constructor; eauto|].
      destruct (read ops a'); simpl; [|constructor; eauto].
      specialize (IH g1). destruct (pull_all ops d delta l g1) as [[l' g2] [rs|e]]; simpl in *; constructor; eauto.
    Qed.
    Lemma pull_list_src delta is : forall arms0 arms g, Forall2 P arms0 arms ->
      Forall2 P arms0 (fst (fst (pull_list ops w cfg all delta is arms g))).
    Proof.
      induction is as [|i is IH]; intros arms0 arms g H; simpl; [exact H|].
      destruct (nth_error arms i) as [a|] eqn:Ei; [|exact H].
      destruct (get_data w cfg all (a_units ops a) g) as [[d|e] g1] eqn:Ed; [|exact H].
      assert (Hd : from_data d) by (left; eauto).
      destruct (a_update ops a d delta g1) as [[a' g2] e] eqn:E.
      assert (HH : Forall2 P arms0 (modify i (fun _ => a') arms)).
      { apply (Forall2_modify P); [exact H|]. intros a0 b Hb Hp. assert (b = a) as -> by congruence. eauto. }
      destruct e; simpl; [exact HH|]. apply IH, HH.
    Qed.
    Lemma run_src alg fuel arms g : Forall2 P arms (b_arms (final_state (run alg ops w cfg fuel all arms g))).
    Proof.
      set (J := fun s : bstate => Forall2 P arms (b_arms s)).
      assert (HL : forall (body : bstate -> step bstate (list nat)),
        (forall s, J s -> match body s with Continue s' => J s' | Finish _ s' => J s' | Fail _ s' => J s' end) ->
        forall s, J s -> J (final_state (loop fuel body s))).
      { intros body Hb s Hs. pose proof (loop_inv body J (fun _ => J) (fun _ => J) Hb fuel s Hs) as H.
        destruct (loop fuel body s); exact H. }
      assert (HU : forall s, J s -> match uniform_step ops w cfg all s with Continue s' => J s' | Finish _ s' => J s' | Fail _ s' => J s' end).
      { intros s Hs. unfold uniform_step.
        destruct (match all with Some _ => _ | None => Ok 0 end) as [start|e] eqn:Es; [|exact Hs].
        destruct (get_data w cfg all start (b_g s)) as [[d|e] g1] eqn:Ed; [|exact Hs].
        assert (Hd : from_data d).
        { assert (Hst : start = 0 \/ exists a, start = a_units ops a).
          { clear -Es. destruct all; [destruct (b_arms s) as [|a1 l]; [discriminate|]|]; injection Es as <-; eauto. }
          destruct Hst as [->|(a & ->)]; [right|left]; eauto. }
        pose proof (pull_all_src d (delta_of cfg (b_arms s)) Hd arms (b_arms s) g1 Hs) as Hp.
        destruct (pull_all ops d (delta_of cfg (b_arms s)) (b_arms s) g1) as [[arms' g2] [rs|e]]; [|exact Hp].
        destruct (over_limit _ _) as [[]|e]; [| |exact Hp].
        - destruct (do rs' <- collect ops arms'; argmin_arms (map r_var rs')); exact Hp.
        - destruct (do rs' <- collect ops arms'; check_end cfg rs') as [[[] b]|e]; exact Hp. }
      assert (HLU : forall s, J s -> match lucb_step ops w cfg all s with Continue s' => J s' | Finish _ s' => J s' | Fail _ s' => J s' end).
      { intros s Hs. unfold lucb_step.
        destruct (over_limit _ _) as [[]|e]; [| |exact Hs].
        - destruct (do rs' <- collect ops (b_arms s); argmin_arms (map r_var rs')); exact Hs.
        - destruct (select_arms ops w (b_arms s) (b_g s)) as [[is|e] g1]; [|exact Hs].
          pose proof (pull_list_src (delta_of cfg (b_arms s)) is arms (b_arms s) g1 Hs) as Hp.
          destruct (pull_list ops w cfg all (delta_of cfg (b_arms s)) is (b_arms s) g1) as [[arms' g2] [e|]]; [exact Hp|].
          destruct (collect ops arms') as [rs|e]; [|exact Hp].
          destruct (check_end cfg rs) as [[[] b]|e]; exact Hp. }
      assert (HSE : forall s, J s -> match se_step ops w cfg all s with Continue s' => J s' | Finish _ s' => J s' | Fail _ s' => J s' end).
      { intros s Hs. unfold se_step. destruct (negb (1 <? length (b_cand s))); [exact Hs|].
        destruct (over_limit _ _) as [[]|e]; [| |exact Hs].
        - destruct (do rs' <- collect ops (b_arms s); argmin_arms (map r_var rs')); exact Hs.
        - pose proof (pull_list_src (delta_of cfg (b_arms s)) (b_cand s) arms (b_arms s) (b_g s) Hs) as Hp.
          destruct (pull_list ops w cfg all (delta_of cfg (b_arms s)) (b_cand s) (b_arms s) (b_g s)) as [[arms' g2] [e|]]; [exact Hp|].
          destruct (collect ops arms') as [rs|e]; [|exact Hp].
          destruct (eliminate (b_cand s) rs) as [c|e]; [|exact Hp]. destruct (length c =? 1); exact Hp. }
      destruct alg; simpl.
      - apply HL; [exact HU|]. apply (Forall2_refl P Hrefl).
      - unfold run_lucb, lucb_start.
        destruct (get_data w cfg all 0 g) as [[d|e] g1] eqn:Ed; [|apply (Forall2_refl P Hrefl)].
        pose proof (pull_all_src d (delta_of cfg arms) (or_intror (ex_intro _ g (ex_intro _ g1 Ed))) arms arms g1 (Forall2_refl P Hrefl arms)) as Hp.
        destruct (pull_all ops d (delta_of cfg arms) arms g1) as [[arms' g2] [rs|e]]; [|exact Hp].
        apply HL; [exact HLU|exact Hp].
      - apply HL; [exact HSE|]. apply (Forall2_refl P Hrefl).
    Qed.
  End Rel.
End P.
