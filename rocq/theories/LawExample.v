(** A small instance of the paper's graph, with the hypotheses of C117 to C119 checked. *)
From Coq Require Import List Arith ZArith Bool String Reals Lra Lia.
From Verif Require Import PyBase DataModel ScmModel ScmProofs PaperModel PaperSpec PaperProofs ScmSpec LawSpec LawProofs LawProofs2 LawProofs3.
Import ListNotations.
Open Scope nat_scope.
Open Scope list_scope.

(** ** tapes of equally likely values *)
Fixpoint words {W} (ws : list W) (k : nat) : list (list W) :=
  match k with 0 => [[]] | S k' => flat_map (fun w => map (cons w) (words ws k')) ws end.

Section Words.
  Context {W : Type} (ws : list W) (c : R).
  Hypothesis Hc : (0 < c)%R.
  Notation seeds := (map (fun w => (w, c)) ws).

  Lemma tapes_words k : forall g p, In (g, p) (tapes seeds k) -> In g (words ws k).
  Proof.
    induction k as [|k IH]; intros g p H; cbn [tapes words] in *; [destruct H as [[= <- _]|[]]; now left|].
    apply in_flat_map in H as ((w, q) & Hw & H). apply in_map_iff in Hw as (w' & [= -> <-] & Hw).
    apply in_map_iff in H as ((g', q') & [= <- _] & H). apply in_flat_map. exists w. split; [exact Hw|]. apply in_map.
    exact (IH g' q' H).
  Qed.
  Lemma words_tapes k : forall g, In g (words ws k) -> exists p, (0 < p)%R /\ In (g, p) (tapes seeds k).
  Proof.
    induction k as [|k IH]; intros g H; cbn [tapes words] in *; [destruct H as [<-|[]]; exists 1%R; split; [lra|now left]|].
    apply in_flat_map in H as (w & Hw & H). apply in_map_iff in H as (g' & <- & H). destruct (IH g' H) as (p & Hp & Hin).
    exists (c * p)%R. split; [now apply Rmult_lt_0_compat|]. apply in_flat_map. exists (w, c). split; [apply in_map_iff; eauto|].
    apply in_map_iff. exists (g', p). now split.
  Qed.
  Lemma prob_words k b g : In g (words ws k) -> b g = true -> (0 < prob (tapes seeds k) b)%R.
  Proof.
    intros Hg Hb. destruct (words_tapes k g Hg) as (p & Hp & Hin).
    apply Rlt_le_trans with (p * (if b g then 1 else 0))%R; [rewrite Hb; lra|].
    apply (mean_ge_term (tapes seeds k) (fun g => if b g then 1%R else 0%R) g p); trivial.
    - apply tapes_pos. intros a q H. apply in_map_iff in H as (w & [= -> <-] & _). lra.
    - intro a. destruct (b a); lra.
  Qed.
  Lemma overlap_words k treated agree reps : (forall x y z, agree x y = true -> agree y z = true -> agree x z = true) ->
    forallb (fun g => existsb (agree g) reps) (words ws k) = true ->
    forallb (fun r => existsb (fun g' => treated g' && agree r g') (words ws k)) reps = true ->
    overlap (tapes seeds k) treated agree.
  Proof.
    intros Ht H H' g p Hin _. rewrite forallb_forall in H, H'. specialize (H g (tapes_words k g p Hin)).
    apply existsb_exists in H as (r & Hr & Er). apply H' in Hr. apply existsb_exists in Hr as (g' & Hg' & E).
    apply (prob_words k _ g' Hg'). apply andb_prop in E as (E1 & E2). rewrite E1. exact (Ht g r g' Er E2).
  Qed.
  Lemma front_overlap_words {V} (eqb : arr V -> arr V -> bool) k treated (fx fz : list W -> option (arr V)) xs zs : decides eqb ->
    existsb treated (words ws k) = true ->
    forallb (fun g => existsb (same eqb (fx g)) xs && existsb (same eqb (fz g)) zs) (words ws k) = true ->
    forallb (fun x => forallb (fun z => existsb (fun g => same eqb x (fx g) && same eqb z (fz g)) (words ws k)) zs) xs = true ->
    front_overlap (tapes seeds k) treated (fun g g' => same eqb (fx g) (fx g')) (fun g g' => same eqb (fz g) (fz g')).
  Proof.
    intros Heq H1 H2 H3. rewrite forallb_forall in H2, H3.
    assert (Hx : forall g, In g (words ws k) -> In (fx g) xs /\ In (fz g) zs).
    { intros g Hg. specialize (H2 g Hg). apply andb_prop in H2 as (A & B).
      apply existsb_exists in A as (x & Hx & Ex). apply existsb_exists in B as (z & Hz & Ez).
      apply same_iff in Ex; [|exact Heq]. apply same_iff in Ez; [|exact Heq]. split; congruence. }
    split.
    - apply existsb_exists in H1 as (g & Hg & E). exact (prob_words k _ g Hg E).
    - intros g p g' p' Hin _ Ht Hin' _.
      specialize (H3 (fx g') (proj1 (Hx g' (tapes_words k g' p' Hin')))). rewrite forallb_forall in H3.
      specialize (H3 (fz g) (proj2 (Hx g (tapes_words k g p Hin)))).
      apply existsb_exists in H3 as (g'' & Hg'' & E). exact (prob_words k _ g'' Hg'' E).
  Qed.
End Words.

(** ** one path: V1 is 1 with probability 1/3; Z1, X, Z0 flip V1, V1, X with probability 1/3; Y is
    Z0 + Z1, plus 2 with probability 1/3 *)
Definition law3 : law nat := map (fun w => (w, (1/3)%R)) [0; 1; 2].
Definition cell (b : nat) : arr nat := mkArr [1] [[b]].
Definition num (a : arr nat) : nat := match arows a with [[b]] => b | _ => 0 end.
Definition arr_eqb (a b : arr nat) : bool :=
  (if list_eq_dec Nat.eq_dec (atail a) (atail b) then true else false) &&
  (if list_eq_dec (list_eq_dec Nat.eq_dec) (arows a) (arows b) then true else false).
Lemma arr_eqb_decides : decides arr_eqb.
Proof.
  intros [ta ra] [tb rb]. unfold arr_eqb. cbn [atail arows].
  destruct (list_eq_dec Nat.eq_dec ta tb), (list_eq_dec (list_eq_dec Nat.eq_dec) ra rb); cbn [andb]; split; congruence.
Qed.

Definition flip (b w : nat) : nat := if w =? 2 then 1 - b else b.
Definition phi3 (v : string) (args : list (arr nat)) (w : nat) : arr nat :=
  let arg i := num (nth i args (cell 0)) in
  cell (if String.eqb v "V1" then flip 0 w
        else if String.eqb v "Y" then arg 0 + arg 1 + (if w =? 2 then 2 else 0)
        else flip (arg 0) w).
Definition cpds3 : sdict (cpd nat (list nat)) :=
  map (fun v => (v, fun (n : nat) (args : list (arr nat)) (g : list nat) =>
    match g with w :: g' => (Ok (phi3 v args w), g') | [] => (Err OracleError, []) end)) ["V1"; "Z1"; "X"; "Z0"; "Y"]%string.
Definition K3 (v : string) (args : list (arr nat)) : law (arr nat) := map (fun wp => (phi3 v args (fst wp), snd wp)) law3.
Definition pa3 (v : string) : list string :=
  if String.eqb v "Z1" then ["V1"%string] else if String.eqb v "X" then ["V1"%string]
  else if String.eqb v "Z0" then ["X"%string] else if String.eqb v "Y" then ["Z0"; "Z1"]%string else [].

Lemma law3_law : is_law law3.
Proof.
  split; [|cbn; lra]. intros a p H. apply in_map_iff in H as (w & [= _ <-] & _). lra.
Qed.
Lemma cpds3_entry v f : entry cpds3 v f -> draws law3 1 f (K3 v).
Proof.
  intro H. apply entry_sget in H. unfold cpds3 in H. cbn [map sget] in H.
  repeat match type of H with (if String.eqb v ?u then _ else _) = _ =>
    destruct (String.eqb_spec v u) as [->|]; [injection H as <-; left; eexists; split; reflexivity|] end. discriminate H.
Qed.
Definition scm3 : scm nat (list nat) := match paper_scm 1 cpds3 with Ok s => s | Err _ => mkScm "" [] [] [] [] "" "" end.
Lemma scm3_ok : paper_scm 1 cpds3 = Ok scm3.
Proof. reflexivity. Qed.

Lemma scm3_overlap names b : In names [["V1"%string]; ["Z1"%string]] -> In b [0; 1] ->
  overlap (tapes law3 5) (fun g => same arr_eqb (Some (cell b)) (drawn scm3 1 g "X"))
    (fun g g' => forallb (fun v => same arr_eqb (drawn scm3 1 g v) (drawn scm3 1 g' v)) names).
Proof.
  intros Hn Hb. apply (overlap_words [0; 1; 2] (1/3)%R ltac:(lra) 5 _ _ [[0; 0; 0; 0; 0]; [2; 0; 0; 0; 0]]).
  - intros x y z Hx Hy. apply (agree_iff arr_eqb arr_eqb_decides names (drawn scm3 1 x) (drawn scm3 1 z)).
    pose proof (proj1 (agree_iff arr_eqb arr_eqb_decides names (drawn scm3 1 x) (drawn scm3 1 y)) Hx) as Hx'.
    pose proof (proj1 (agree_iff arr_eqb arr_eqb_decides names (drawn scm3 1 y) (drawn scm3 1 z)) Hy) as Hy'.
    intros v Hv. now rewrite (Hx' v Hv), (Hy' v Hv).
  - destruct Hn as [<-|[<-|[]]]; vm_compute; reflexivity.
  - destruct Hn as [<-|[<-|[]]], Hb as [<-|[<-|[]]]; vm_compute; reflexivity.
Qed.
Lemma scm3_front b : In b [0; 1] ->
  front_overlap (tapes law3 5) (fun g => same arr_eqb (Some (cell b)) (drawn scm3 1 g "X"))
    (fun g g' => same arr_eqb (drawn scm3 1 g "X") (drawn scm3 1 g' "X"))
    (fun g g' => same arr_eqb (drawn scm3 1 g "Z0") (drawn scm3 1 g' "Z0")).
Proof.
  intros [<-|[<-|[]]]; (apply (front_overlap_words [0; 1; 2] (1/3)%R ltac:(lra) arr_eqb 5 _ (fun g => drawn scm3 1 g "X") (fun g => drawn scm3 1 g "Z0")
    [Some (cell 0); Some (cell 1)] [Some (cell 0); Some (cell 1)] arr_eqb_decides); vm_compute; reflexivity).
Qed.
