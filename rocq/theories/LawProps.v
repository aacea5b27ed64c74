(** Properties C117 to C119: the law of generated data and what can be learnt from it. *)
From Coq Require Import List Arith ZArith Bool String Reals Lra Lia.
From Verif Require Import PyBase DataModel ScmModel ScmProofs PaperModel PaperSpec PaperProofs ScmSpec LawSpec LawProofs LawProofs2 LawProofs3 LawExample.
Import ListNotations.
Open Scope nat_scope.
Open Scope list_scope.

(** ** C117: generated data follow the factorisation along the graph *)

(** the samples of the variables have the joint law prod_v P(x_v | x_parents(v)) *)
Theorem C117_factorises : forall (W V : Type) (seeds : law W) (s : scm V (list W)) n k
    (K : string -> list (arr V) -> law (arr V)) (pa : string -> list string) (eqb : arr V -> arr V -> bool) (x : string -> arr V),
  is_law seeds -> decides eqb -> topological s -> NoDup (s_vars s) -> List.length (s_vars s) <= k ->
  (forall v, In v (s_vars s) -> entry (s_parents s) v (pa v) /\
     exists f, entry (s_cpds s) v f /\ draws seeds n f (K v)) ->
  prob (tapes seeds k) (fun g => forallb (fun v => same eqb (drawn s n g v) (Some (x v))) (s_vars s)) =
  product (map (fun v => prob (K v (map x (pa v))) (fun a => eqb a (x v))) (s_vars s)).
Proof.
  intros W V seeds s n k K pa eqb x Hlaw Heq Ht Hnd Hk Hf.
  assert (Hfits : forall v, In v (s_vars s) -> fits seeds s n K pa v).
  { intros v Hv. destruct (Hf v Hv) as (Hp & f & Hc & Hd). split; [now apply entry_sget|].
    exists f. split; [now apply entry_sget|exact Hd]. }
  unfold prob at 1.
  rewrite (drawn_law seeds s n K pa (fun e => if forallb (fun v => same eqb (e v) (Some (x v))) (s_vars s) then 1%R else 0%R) k Hlaw Hfits Ht Hk).
  apply (bn_factor K pa eqb x Heq (s_vars s) [] []); trivial.
  - intros v [].
  - intros pre v post p E Hp. right. apply (Ht pre v post p E). exists (pa v). split; [|exact Hp].
    apply Hf. rewrite E. apply in_elt.
Qed.
Print Assumptions C117_factorises.

(** setting a variable to a value removes its factor and nothing else *)
Theorem C117_intervention : forall (W V : Type) (seeds : law W) (s s' : scm V (list W)) n k
    (K : string -> list (arr V) -> law (arr V)) (pa : string -> list string) (eqb : arr V -> arr V -> bool) (x : string -> arr V)
    t f (a : arr V),
  is_law seeds -> decides eqb -> topological s -> NoDup (s_vars s) -> List.length (s_vars s) <= k ->
  (forall v, In v (s_vars s) -> entry (s_parents s) v (pa v) /\
     exists f, entry (s_cpds s) v f /\ draws seeds n f (K v)) ->
  replaces s t f s' -> (forall args g, f n args g = (Ok a, g)) -> In t (s_vars s) ->
  prob (tapes seeds k) (fun g => forallb (fun v => same eqb (drawn s' n g v) (Some (x v))) (s_vars s)) =
  if eqb a (x t) then product (map (fun v => prob (K v (map x (pa v))) (fun b => eqb b (x v)))
                                (filter (fun v => negb (String.eqb v t)) (s_vars s)))
  else 0%R.
Proof.
  intros W V seeds s s' n k K pa eqb x t f a Hlaw Heq Ht Hnd Hk Hf (Ev & Ep & _ & _ & _ & Ef & Eo) Ha Hin.
  set (K' := fun v l => if String.eqb v t then [(a, 1%R)] else K v l).
  pose proof (C117_factorises W V seeds s' n k K' pa eqb x Hlaw Heq) as H. rewrite Ev in H. rewrite H; clear H; trivial.
  - revert Hin Hnd. clear. generalize (s_vars s). intros l Hin Hnd. induction l as [|v l IH]; [destruct Hin|].
    inversion Hnd as [|? ? Hv Hnd']; subst. cbn [map filter product fold_right]. fold (product (map (fun v => prob (K' v (map x (pa v))) (fun b => eqb b (x v))) l)).
    unfold K' at 1. destruct (String.eqb_spec v t) as [->|Hne]; cbn [negb].
    + assert (E : map (fun v => prob (K' v (map x (pa v))) (fun b => eqb b (x v))) l =
        map (fun v => prob (K v (map x (pa v))) (fun b => eqb b (x v))) (filter (fun v => negb (String.eqb v t)) l)).
      { clear - Hv. induction l as [|u l IH]; [reflexivity|]. cbn [map filter]. unfold K' at 1.
        destruct (String.eqb_spec u t) as [->|Hu]; [exfalso; apply Hv; now left|]. cbn [negb map]. f_equal. apply IH. intro; apply Hv; now right. }
      rewrite E. unfold prob at 1. cbn [mean]. unfold product. destruct (eqb a (x t)); ring.
    + destruct Hin as [->|Hin]; [contradiction|]. rewrite (IH Hin Hnd'). cbn [map]. unfold product. cbn [fold_right].
      destruct (eqb a (x t)); [reflexivity|lra].
  - intros pre v post p E1 (ps & E2 & E3). apply (Ht pre v post p); [congruence|]. exists ps. rewrite <- Ep. now split.
  - intros v Hv. destruct (Hf v Hv) as (Hp & h & Hc & Hd). rewrite Ep. split; [exact Hp|]. unfold K'.
    destruct (String.eqb_spec v t) as [->|Hn].
    + exists f. split; [exact Ef|]. right. exists a. split; [exact Ha|reflexivity].
    + exists h. split; [apply Eo; [exact Hn|exact Hc]|exact Hd].
Qed.
Print Assumptions C117_intervention.

(** one path, V1 = Z1 = X = Z0 = Y = 0: every variable takes this value with probability 2/3 given its
    parents; with X set to 0 one factor less *)
Example C117_case : paper_scm 1 cpds3 = Ok scm3 /\ s_vars scm3 = ["V1"; "Z1"; "X"; "Z0"; "Y"]%string /\
  prob (tapes law3 5) (fun g => forallb (fun v => same arr_eqb (drawn scm3 1 g v) (Some (cell 0))) (s_vars scm3)) = (32/243)%R /\
  prob (tapes law3 5) (fun g => forallb (fun v => same arr_eqb
    (drawn (set_cpd scm3 "X" (fun _ _ g => (Ok (cell 0), g))) 1 g v) (Some (cell 0))) (s_vars scm3)) = (16/81)%R.
Proof.
  split; [reflexivity|]. split; [reflexivity|].
  assert (Ht : topological scm3) by (apply (paper_topological 1 cpds3); reflexivity).
  assert (Hnd : NoDup (s_vars scm3)) by (repeat constructor; cbn; intuition discriminate).
  assert (Hf : forall v, In v (s_vars scm3) -> entry (s_parents scm3) v (pa3 v) /\
     exists f, entry (s_cpds scm3) v f /\ draws law3 1 f (K3 v)).
  { intros v Hv. assert (He : exists f, sget cpds3 v = Some f).
    { repeat (destruct Hv as [<-|Hv]; [eexists; reflexivity|]). destruct Hv. }
    destruct He as (f & Ef). apply entry_sget in Ef. split.
    - apply entry_sget. clear - Hv. repeat (destruct Hv as [<-|Hv]; [reflexivity|]). destruct Hv.
    - exists f. split; [exact Ef|]. now apply cpds3_entry. }
  split.
  - rewrite (C117_factorises nat nat law3 scm3 1 5 K3 pa3 arr_eqb (fun _ => cell 0) law3_law arr_eqb_decides Ht Hnd (le_n 5) Hf).
    change (s_vars scm3) with ["V1"; "Z1"; "X"; "Z0"; "Y"]%string. unfold prob, K3, law3, product. cbn. lra.
  - rewrite (C117_intervention nat nat law3 scm3 _ 1 5 K3 pa3 arr_eqb (fun _ => cell 0) "X" (fun _ _ g => (Ok (cell 0), g)) (cell 0)
      law3_law arr_eqb_decides Ht Hnd (le_n 5) Hf).
    + change (s_vars scm3) with ["V1"; "Z1"; "X"; "Z0"; "Y"]%string. unfold prob, K3, law3, product. cbn. lra.
    + repeat split; trivial.
      * apply entry_sget, sget_same.
      * intros H1. apply entry_sget in H1. apply entry_sget. cbn [s_cpds set_cpd] in H1. now rewrite sget_other in H1.
      * intros H1. apply entry_sget in H1. apply entry_sget. cbn [s_cpds set_cpd]. now rewrite sget_other.
    + reflexivity.
    + cbn. tauto.
Qed.

(** ** C118: adjusting for V_i or Z_i on every path gives the effect of the treatment *)

(** the mean response when X is set to [a], from data in which X depends on the V_i *)
Theorem C118_back_door : forall (W V : Type) (seeds : law W) n m k (eqb : arr V -> arr V -> bool)
    (cpds : sdict (cpd V (list W))) s (K : string -> list (arr V) -> law (arr V)) (Y : option (arr V) -> R) a f s' names,
  is_law seeds -> decides eqb -> 2 * m + 3 <= k -> paper_scm m cpds = Ok s ->
  (forall v f, paper_var m v -> entry cpds v f -> draws seeds n f (K v)) ->
  (forall args g, f n args g = (Ok a, g)) -> replaces s "X" f s' ->
  on_paths m names -> blocks m names ->
  overlap (tapes seeds k) (fun g => same eqb (Some a) (drawn s n g "X"))
    (fun g g' => forallb (fun v => same eqb (drawn s n g v) (drawn s n g' v)) names) ->
  adjusted (tapes seeds k) (fun g => same eqb (Some a) (drawn s n g "X"))
    (fun g g' => forallb (fun v => same eqb (drawn s n g v) (drawn s n g' v)) names) (fun g => Y (drawn s n g "Y")) =
  mean (tapes seeds k) (fun g => Y (drawn s' n g "Y")).
Proof.
  intros W V seeds n m k eqb cpds s K Y a f s' names Hlaw Heq Hk Hs Hd Hf Hs' Hn Hb Ho.
  exact (back_door_law seeds n m k eqb Hlaw Heq Hk cpds s K Hs Hd Y a f s' Hf Hs' names Hn Hb Ho).
Qed.
Print Assumptions C118_back_door.

(** in particular for each of the 2^m sets the arms are named after: they estimate the same effect *)
Theorem C118_named_sets : forall (W V : Type) (seeds : law W) n m k (eqb : arr V -> arr V -> bool)
    (cpds : sdict (cpd V (list W))) s (K : string -> list (arr V) -> law (arr V)) (Y : option (arr V) -> R) a f s' j,
  is_law seeds -> decides eqb -> 2 * m + 3 <= k -> paper_scm m cpds = Ok s ->
  (forall v f, paper_var m v -> entry cpds v f -> draws seeds n f (K v)) ->
  (forall args g, f n args g = (Ok a, g)) -> replaces s "X" f s' ->
  let names := map (fun i => if observes_v j i then Vn i else Zn i) (seq 1 m) in
  overlap (tapes seeds k) (fun g => same eqb (Some a) (drawn s n g "X"))
    (fun g g' => forallb (fun v => same eqb (drawn s n g v) (drawn s n g' v)) names) ->
  adjusted (tapes seeds k) (fun g => same eqb (Some a) (drawn s n g "X"))
    (fun g g' => forallb (fun v => same eqb (drawn s n g v) (drawn s n g' v)) names) (fun g => Y (drawn s n g "Y")) =
  mean (tapes seeds k) (fun g => Y (drawn s' n g "Y")).
Proof.
  intros W V seeds n m k eqb cpds s K Y a f s' j Hlaw Heq Hk Hs Hd Hf Hs' names.
  apply (C118_back_door W V seeds n m k eqb cpds s K Y a f s' names); trivial.
  - intros v Hv. apply in_map_iff in Hv as (i & <- & Hi). apply in_seq in Hi. exists i. split; [lia|]. destruct (observes_v j i); auto.
  - intros i Hi. assert (Hin : In (if observes_v j i then Vn i else Zn i) names) by (apply (in_map (fun i => if observes_v j i then Vn i else Zn i)), in_seq; lia).
    destruct (observes_v j i); auto.
Qed.
Print Assumptions C118_named_sets.

(** one path: adjusting for V1 and for Z1 both give the mean of Y with X set to 1 *)
Example C118_case : paper_scm 1 cpds3 = Ok scm3 /\
  (forall names, In names [["V1"%string]; ["Z1"%string]] -> on_paths 1 names /\ blocks 1 names /\
    overlap (tapes law3 5) (fun g => same arr_eqb (Some (cell 1)) (drawn scm3 1 g "X"))
      (fun g g' => forallb (fun v => same arr_eqb (drawn scm3 1 g v) (drawn scm3 1 g' v)) names) /\
    adjusted (tapes law3 5) (fun g => same arr_eqb (Some (cell 1)) (drawn scm3 1 g "X"))
      (fun g g' => forallb (fun v => same arr_eqb (drawn scm3 1 g v) (drawn scm3 1 g' v)) names)
      (fun g => match drawn scm3 1 g "Y" with Some a => INR (num a) | None => 0%R end) =
    mean (tapes law3 5) (fun g => match drawn (set_cpd scm3 "X" (fun _ _ g => (Ok (cell 1), g))) 1 g "Y" with
      Some a => INR (num a) | None => 0%R end)).
Proof.
  split; [reflexivity|]. intros names Hn.
  assert (Ho : on_paths 1 names /\ blocks 1 names).
  { destruct Hn as [<-|[<-|[]]]; (split;
      [intros v [<-|[]]; exists 1; split; [lia|]; (left; reflexivity) || (right; reflexivity)|
       intros i Hi; assert (i = 1) as -> by lia; (left; now left) || (right; now left)]). }
  split; [apply Ho|]. split; [apply Ho|]. pose proof (scm3_overlap names 1 Hn ltac:(cbn; tauto)) as Hov. split; [exact Hov|].
  apply (C118_back_door nat nat law3 1 1 5 arr_eqb cpds3 scm3 K3
    (fun o => match o with Some a => INR (num a) | None => 0%R end) (cell 1) (fun _ _ g => (Ok (cell 1), g)) _ names law3_law
    arr_eqb_decides (le_n 5) scm3_ok (fun v f _ He => cpds3_entry v f He)); trivial; [|apply Ho|apply Ho].
  repeat split; trivial.
  - apply entry_sget, sget_same.
  - intros H1. apply entry_sget in H1. apply entry_sget. cbn [s_cpds set_cpd] in H1. now rewrite sget_other in H1.
  - intros H1. apply entry_sget in H1. apply entry_sget. cbn [s_cpds set_cpd]. now rewrite sget_other.
Qed.

(** ** C119: the front-door formula through Z0 gives the same effect *)
Theorem C119_front_door : forall (W V : Type) (seeds : law W) n m k (eqb : arr V -> arr V -> bool)
    (cpds : sdict (cpd V (list W))) s (K : string -> list (arr V) -> law (arr V)) (Y : option (arr V) -> R) a f s',
  is_law seeds -> decides eqb -> 2 * m + 3 <= k -> paper_scm m cpds = Ok s ->
  (forall v f, paper_var m v -> entry cpds v f -> draws seeds n f (K v)) ->
  (forall args g, f n args g = (Ok a, g)) -> replaces s "X" f s' ->
  front_overlap (tapes seeds k) (fun g => same eqb (Some a) (drawn s n g "X"))
    (fun g g' => same eqb (drawn s n g "X") (drawn s n g' "X")) (fun g g' => same eqb (drawn s n g "Z0") (drawn s n g' "Z0")) ->
  front_door (tapes seeds k) (fun g => same eqb (Some a) (drawn s n g "X"))
    (fun g g' => same eqb (drawn s n g "X") (drawn s n g' "X")) (fun g g' => same eqb (drawn s n g "Z0") (drawn s n g' "Z0"))
    (fun g => Y (drawn s n g "Y")) =
  mean (tapes seeds k) (fun g => Y (drawn s' n g "Y")).
Proof.
  intros W V seeds n m k eqb cpds s K Y a f s' Hlaw Heq Hk Hs Hd Hf Hs' Ho.
  exact (front_door_law seeds n m k eqb Hlaw Heq Hk cpds s K Hs Hd Y a f s' Hf Hs' Ho).
Qed.
Print Assumptions C119_front_door.

Example C119_case : paper_scm 1 cpds3 = Ok scm3 /\ is_law law3 /\ decides arr_eqb /\
  (forall v f, paper_var 1 v -> entry cpds3 v f -> draws law3 1 f (K3 v)) /\
  forall b, In b [0; 1] ->
  front_overlap (tapes law3 5) (fun g => same arr_eqb (Some (cell b)) (drawn scm3 1 g "X"))
    (fun g g' => same arr_eqb (drawn scm3 1 g "X") (drawn scm3 1 g' "X"))
    (fun g g' => same arr_eqb (drawn scm3 1 g "Z0") (drawn scm3 1 g' "Z0")).
Proof.
  split; [reflexivity|]. split; [apply law3_law|]. split; [apply arr_eqb_decides|].
  split; [intros v f _; apply cpds3_entry|]. apply scm3_front.
Qed.
