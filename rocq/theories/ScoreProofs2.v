(** The scores of an arm on generated data: datasets, units, batches. *)
From Coq Require Import List Arith ZArith Bool String Reals Lra Lia.
From Verif Require Import PyBase Num NumOps DataModel ScmModel ScmProofs ScmProps TabModel BanditModel ArmModel ParamModel ParamSpec ParamProofs ParamProofs2
  PaperModel PaperSpec PaperProofs PaperProofs2 PaperProofs3 ScmSpec LawSpec LawProofs LawProofs2 LawProofs3 LawProofs4 ScoreSpec ScoreProofs.
Import ListNotations.
Open Scope nat_scope.
Open Scope list_scope.

(** ** equality of arrays of extended reals *)
Definition x_dec : forall a b : X, {a = b} + {a <> b}.
Proof. decide equality. apply Req_EM_T. Defined.
Definition xarr_eqb (a b : arr X) : bool :=
  (if list_eq_dec Nat.eq_dec (atail a) (atail b) then true else false) &&
  (if list_eq_dec (list_eq_dec x_dec) (arows a) (arows b) then true else false).
Lemma xarr_eqb_decides : decides xarr_eqb.
Proof.
  intros [ta ra] [tb rb]. unfold xarr_eqb. cbn [atail arows].
  destruct (list_eq_dec Nat.eq_dec ta tb), (list_eq_dec (list_eq_dec x_dec) ra rb); cbn [andb]; split; congruence.
Qed.
Lemma map_Fin_inj (a b : list R) : map Fin a = map Fin b -> a = b.
Proof. revert b. induction a as [|x a IH]; intros [|y b] E; cbn in E; try discriminate; [reflexivity|]. injection E as -> E. f_equal. now apply IH. Qed.
Lemma bit_inj b c : bit xreal b = bit xreal c -> b = c.
Proof. destruct b, c; cbn; intro E; trivial; injection E as E; exfalso; revert E; cbn; lra. Qed.

(** ** the dataset an arm gets *)
Section Data.
  Context {W V : Type} (seeds : law W) (n m k : nat).
  Hypothesis Hk : 2 * m + 3 <= k.
  Context (cpds : sdict (cpd V (list W))) (s : scm V (list W)) (K : string -> list (arr V) -> law (arr V)).
  Hypothesis Hs : paper_scm m cpds = Ok s.
  Hypothesis Hd : forall v f, paper_var m v -> entry cpds v f -> draws seeds n f (K v).
  Context (zd vd : list nat).
  Hypothesis Hreg : regular (tapes seeds k) s n m zd vd.
  Context (j : nat).
  Hypothesis Hfit : dims_fit zd vd m.

  Lemma arm_data g p : In (g, p) (tapes seeds k) -> exists d r c x,
    fst (generate s n g) = Ok d /\ select_fn (arm_mask zd vd m j) d = Ok r /\
    seen s n (arm_mask zd vd m j) g = Some c /\
    dcov r = Some c /\ dexp r = drawn s n g "X" /\ drsp r = drawn s n g "Y" /\ n_units r = n /\ n_features r = arm_dim zd vd m j /\
    atail c = [arm_dim zd vd m j] /\ List.length (arows c) = n /\
    forall u, u < n -> row c u = take_at (arm_columns zd vd m j) (row x u) /\
      Forall2 (fun vc y => cell_at n s g (fst vc) u (snd vc) = Some y) (labels zd vd m) (row x u).
  Proof.
    intro Hin. destruct (labelled seeds n m k Hk cpds s K Hs Hd zd vd Hreg g p Hin) as (d & g' & x & Hg & Hx & Hat & Hn & Hlab).
    pose proof Hfit as (Hm & Hz & Hv & H0 & Hpos).
    assert (Hne : blocks_nonempty zd vd m j = true).
    { apply blocks_nonempty_spec. intros i Hi. destruct (Hpos i Hi). destruct (observes_v j i); assumption. }
    destruct (arm_select zd vd m j d x Hz Hv H0) as (r & c & Er & Ec & Ee & Ey & Hat' & Hlen & Hrow); trivial; [now right|].
    destruct (C21_result s n g d g' Hg) as (log & Hlog & _ & _ & cols & x' & t & y & _ & _ & Ht & Hy & _ & Et & Ey' & _).
    destruct (paper_scm_ok m cpds (proj1 (paper_scm_inv _ _ _ Hs))) as (s1 & E1 & _ & _ & _ & Htrt & Hrsp & _).
    rewrite Hs in E1. injection E1 as <-. rewrite Htrt in Ht. rewrite Hrsp in Hy.
    apply (latest_drawn n s g d g' log Hlog) in Ht. apply (latest_drawn n s g d g' log Hlog) in Hy.
    exists d, r, c, x. rewrite Hg. split; [reflexivity|]. split; [exact Er|].
    split; [unfold seen; rewrite Hg; cbn [fst]; rewrite Er; exact Ec|]. split; [exact Ec|].
    split; [congruence|]. split; [congruence|].
    assert (Hr : n_units r = List.length (arows c) /\ n_features r = afeatures c).
    { rewrite (select_fn_list (arm_mask zd vd m j) d x _ Hx Hat) in Er.
      - injection Er as <-. cbn [ed_init dcov n_units n_features] in *. injection Ec as <-. now split.
      - apply arm_mask_usable. now right.
      - rewrite arm_mask_list. apply Forall_forall. intros q Hq. pose proof (arm_columns_bound zd vd m j q Hq) as B.
        rewrite <- (dims_layout_sum zd vd m Hz Hv) in B. rewrite H0 in B. lia. }
    destruct Hr as (-> & ->). unfold afeatures. rewrite Hat'. split; [congruence|]. split; [reflexivity|]. split; [reflexivity|].
    split; [congruence|]. intros u Hu. split; [apply Hrow; congruence|now apply Hlab].
  Qed.
End Data.

(** ** scores *)
Section Scores.
  Context {W : Type} (seeds : law W) (n m k : nat).
  Hypothesis Hk : 2 * m + 3 <= k.
  Context (cpds : sdict (cpd X (list W))) (s : scm X (list W)) (K : string -> list (arr X) -> law (arr X)).
  Hypothesis Hs : paper_scm m cpds = Ok s.
  Hypothesis Hd : forall v f, paper_var m v -> entry cpds v f -> draws seeds n f (K v).
  Context (zd vd : list nat).
  Hypothesis Hreg : regular (tapes seeds k) s n m zd vd.
  Context (j : nat).
  Hypothesis Hfit : dims_fit zd vd m.
  Context {M P : Type} (pr : predictor X M) (pp : predictor X P) (cf : aipw_conf X) (lo : R) (st : aipw X M P) (mu e : list R -> R).
  Hypothesis Hlo : ac_overlap cf = Fin lo.
  Hypothesis Hl1 : (1 / 10 ^ 15 <= lo)%R.
  Hypothesis Hl2 : (lo <= 1 / 2)%R.
  Hypothesis Hdim : ac_dim cf = arm_dim zd vd m j.
  Hypothesis Hf : ap_fit st = true.
  Hypothesis Hmu : evaluates pr (ap_resp st) (S (ac_dim cf)) mu.
  Hypothesis He : evaluates pp (ap_prop st) (ac_dim cf) e.

  Definition score_of (x : bool) (z : list R) (y : R) : R := dr_score (fun b => mu (b2r b :: z)) (rclip lo (e z)) x y.

  Lemma units_scores {T} (us : list T) tx tz ty g p : In (g, p) (tapes seeds k) ->
    List.length us = n -> (forall u, In u us -> List.length (tz u) = arm_dim zd vd m j) ->
    drawn s n g "X" = Some (vec (bits xreal (map tx us))) ->
    drawn s n g "Y" = Some (vec (map (fun u => Fin (ty u)) us)) ->
    seen s n (arm_mask zd vd m j) g = Some (mkArr [arm_dim zd vd m j] (map (fun u => map Fin (tz u)) us)) ->
    arm_scores pr pp cf st s n (arm_mask zd vd m j) g = Ok (map (fun u => Fin (score_of (tx u) (tz u) (ty u))) us).
  Proof.
    intros Hin Hn Hw HX HY HZ.
    destruct (arm_data seeds n m k Hk cpds s K Hs Hd zd vd Hreg j Hfit g p Hin) as (d & r & c & x & Eg & Er & Ec & Hc & Hx & Hy & Hu & Hfe & _).
    unfold arm_scores. rewrite Eg. cbn [bind]. rewrite Er. cbn [bind].
    apply (aipw_score_x pr pp cf lo Hlo Hl1 Hl2 tz tx ty st r us mu e); trivial.
    rewrite HZ in Ec. injection Ec as <-. rewrite HX in Hx. rewrite HY in Hy.
    unfold dataset. rewrite Hc, Hx, Hy, Hu, Hfe, !map_length, <- Hdim. repeat (split; [reflexivity || (unfold bits; rewrite ?map_length; congruence)|]).
    apply Forall_forall. intros q Hq. apply in_map_iff in Hq as (u & <- & Hiu). rewrite map_length, Hdim. now apply Hw.
  Qed.
End Scores.
