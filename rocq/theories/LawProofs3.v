(** Proofs about adjustment in the graph of Section 5: back door and front door. *)
From Coq Require Import List Arith ZArith Bool String Reals Lra Lia FunctionalExtensionality.
From Verif Require Import PyBase DataModel ScmModel ScmProofs PaperModel PaperSpec PaperProofs ScmSpec LawSpec LawProofs LawProofs2.
Import ListNotations.
Open Scope nat_scope.
Open Scope list_scope.

Definition ind (b : bool) : R := if b then 1%R else 0%R.
Lemma ind_and a b : ind (a && b) = (ind a * ind b)%R.
Proof. destruct a, b; cbn; lra. Qed.

Section Same.
  Context {V : Type} (eqb : arr V -> arr V -> bool) (Heq : decides eqb).
  Lemma same_iff x y : same eqb x y = true <-> x = y.
  Proof.
    destruct x as [a|], y as [b|]; cbn; try (split; congruence).
    rewrite (Heq a b). split; congruence.
  Qed.
  Definition agree_on (names : list string) (e e' : string -> option (arr V)) : bool :=
    forallb (fun v => same eqb (e v) (e' v)) names.
  Lemma agree_iff names e e' : agree_on names e e' = true <-> forall v, In v names -> e v = e' v.
  Proof.
    unfold agree_on. rewrite forallb_forall. split; intros H v Hv; apply same_iff, H, Hv.
  Qed.
  Lemma agree_refl names e : agree_on names e e = true.
  Proof. now apply agree_iff. Qed.
  Lemma agree_cong names e e' : agree_on names e e' = true -> forall x, agree_on names e x = agree_on names e' x.
  Proof.
    intros H x. apply eq_true_iff_eq. rewrite agree_iff in H. rewrite !agree_iff.
    split; intros Hx v Hv; [rewrite <- (H v Hv)|rewrite (H v Hv)]; now apply Hx.
  Qed.

  (** agreement as a product over the paths *)
  Definition at_V names (e : string -> option (arr V)) (i : nat) (v : arr V) : R :=
    if sin names (Vn i) then ind (same eqb (e (Vn i)) (Some v)) else 1%R.
  Definition at_Z names (e : string -> option (arr V)) (i : nat) (z : arr V) : R :=
    if sin names (Zn i) then ind (same eqb (e (Zn i)) (Some z)) else 1%R.
  Definition weights names e (l : list nat) := map (fun i => (at_V names e i, at_Z names e i)) l.

  Lemma agree_weights m names e vs zs x z0 y : on_paths m names -> List.length vs = m -> List.length zs = m ->
    ind (agree_on names e (sget (full m vs zs x z0 y))) = wgt (weights names e (seq 1 m)) vs zs.
  Proof.
    intros Hn Hv Hz. set (r := full m vs zs x z0 y).
    pose proof (sget_full_V m vs zs x z0 y Hv Hz) as FV. pose proof (sget_full_Z m vs zs x z0 y Hv Hz) as FZ.
    fold r in FV, FZ.
    set (cond := fun i => implb (sin names (Vn i)) (same eqb (e (Vn i)) (sget r (Vn i))) &&
                          implb (sin names (Zn i)) (same eqb (e (Zn i)) (sget r (Zn i)))).
    assert (E : agree_on names e (sget r) = forallb cond (seq 1 m)).
    { apply eq_true_iff_eq. rewrite agree_iff, forallb_forall. split.
      - intros H i Hi. unfold cond. apply andb_true_iff. split; rewrite implb_true_iff; intros Hin; apply same_iff, H, sin_true, Hin.
      - intros H v Hin. destruct (Hn v Hin) as (i & Hi & Ei). specialize (H i ltac:(apply in_seq; lia)).
        unfold cond in H. apply andb_true_iff in H as (H1 & H2). rewrite implb_true_iff in H1, H2.
        apply same_iff. destruct Ei as [-> | ->]; [apply H1|apply H2]; now apply sin_true. }
    rewrite E. clear E. clearbody r. clear Hn Hv Hz. revert vs zs FV FZ. generalize (seq 1 m).
    induction l as [|i l IH]; intros vs zs FV FZ; cbn [map weights wgt forallb].
    - inversion FV; subst. inversion FZ; subst. reflexivity.
    - inversion FV as [|? v ? vs' Ev FV']; subst. inversion FZ as [|? z ? zs' Ez FZ']; subst.
      rewrite ind_and. cbn [wgt]. fold (weights names e l).
      assert (Ec : ind (cond i) = (at_V names e i v * at_Z names e i z)%R).
      { unfold cond. rewrite ind_and, Ev, Ez. unfold at_V, at_Z. destruct (sin names (Vn i)), (sin names (Zn i)); cbn [implb ind]; lra. }
      rewrite Ec. f_equal. apply (IH vs' zs'); trivial.
  Qed.
  Lemma weights_pointed m names e : blocks m names ->
    Forall (fun ab => pointed (fst ab) \/ pointed (snd ab)) (weights names e (seq 1 m)).
  Proof.
    intros Hb. apply Forall_forall. intros ab Hin. apply in_map_iff in Hin as (i & <- & Hi). apply in_seq in Hi. cbn [fst snd].
    destruct (Hb i ltac:(lia)) as [H|H]; apply sin_true in H; [left; exists (e (Vn i))|right; exists (e (Zn i))];
      intros v Hv; unfold at_V, at_Z in Hv; rewrite H in Hv; unfold ind in Hv;
      match type of Hv with (if ?b then _ else _) <> _ => destruct b eqn:E; [now apply same_iff|lra] end.
  Qed.
  Lemma weights_length names e l : List.length (weights names e l) = List.length l.
  Proof. apply map_length. Qed.
End Same.

Section Ident.
  Context {W V : Type} (seeds : law W) (n m k : nat) (eqb : arr V -> arr V -> bool).
  Notation A := (arr V).
  Hypothesis Hlaw : is_law seeds.
  Hypothesis Heq : decides eqb.
  Hypothesis Hk : 2 * m + 3 <= k.

  Definition pa_of {G} (s : scm V G) (v : string) : list string :=
    match sget (s_parents s) v with Some ps => ps | None => [] end.

  (** an SCM on the graph of Section 5 *)
  Definition paper_like (s : scm V (list W)) : Prop :=
    s_vars s = paper_vars m /\ topological s /\
    sget (s_parents s) "Z0" = Some ["X"%string] /\
    sget (s_parents s) "X" = Some (map Vn (seq 1 m)) /\
    sget (s_parents s) "Y" = Some ("Z0"%string :: map Zn (seq 1 m)) /\
    (forall i, 1 <= i <= m -> sget (s_parents s) (Vn i) = Some []) /\
    (forall i, 1 <= i <= m -> sget (s_parents s) (Zn i) = Some [Vn i]).

  Lemma paper_vars_length : List.length (paper_vars m) = 2 * m + 3.
  Proof.
    unfold paper_vars. rewrite app_length. cbn [List.length].
    assert (E : forall l : list nat, List.length (flat_map (fun i => [Vn i; Zn i]) l) = 2 * List.length l).
    { induction l as [|i l IH]; cbn [flat_map app List.length]; [reflexivity|]. rewrite IH. lia. }
    rewrite E, seq_length. reflexivity.
  Qed.

  Lemma paper_law s K F : paper_like s ->
    (forall v, paper_var m v -> exists f, sget (s_cpds s) v = Some f /\ draws seeds n f (K v)) ->
    mean (tapes seeds k) (fun g => F (drawn s n g)) =
    pmean (KV K) (KZ K) (seq 1 m) (fun vs zs => mean (K "X" vs) (fun x => mean (K "Z0" [x]) (fun z0 =>
      mean (K "Y" (z0 :: zs)) (fun y => F (sget (full m vs zs x z0 y)))))).
  Proof.
    intros (Ev & Ht & E0 & EX & EY & EV & EZ) Hd.
    rewrite (drawn_law seeds s n K (pa_of s) F k Hlaw); [| |exact Ht|rewrite Ev, paper_vars_length; exact Hk].
    - rewrite Ev. apply (bn_paper K (pa_of s) m); unfold pa_of; [| |now rewrite EX|now rewrite E0|now rewrite EY];
        intros i Hi; [now rewrite EV|now rewrite EZ].
    - intros v Hv. rewrite Ev in Hv. apply paper_vars_in in Hv. split; [|now apply Hd].
      unfold pa_of. destruct Hv; rewrite ?E0, ?EX, ?EY, ?EV, ?EZ by assumption; reflexivity.
  Qed.

  Lemma paper_scm_like cpds s : paper_scm m cpds = Ok s -> paper_like s /\ s_cpds s = cpds /\
    forall v, paper_var m v -> exists f, sget cpds v = Some f.
  Proof.
    intro E. pose proof (paper_topological m cpds s E) as Ht. destruct (paper_scm_inv m cpds s E) as (Hc & _).
    destruct (paper_scm_ok m cpds Hc) as (s' & E' & _ & Hv & _ & _ & _ & Hcp & H0 & HX & HY & HV & HZ).
    rewrite E in E'. injection E' as <-. repeat split; trivial.
    intros v Hvar. destruct (Hc v Hvar) as (f & Hf). exists f. now apply entry_sget.
  Qed.

  Lemma draws_mass (f : cpd V (list W)) K args : draws seeds n f K -> mean (K args) (fun _ => 1%R) = 1%R.
  Proof.
    destruct Hlaw as (_ & H1). intros [(phi & _ & E)|(a & _ & E)]; rewrite E; [now rewrite mean_map|cbn; lra].
  Qed.
  Lemma draws_pos (f : cpd V (list W)) K args : draws seeds n f K -> forall a p, In (a, p) (K args) -> (0 <= p)%R.
  Proof.
    destruct Hlaw as (Hp & _). intros [(phi & _ & E)|(a & _ & E)] b p; rewrite E.
    - intro H. apply in_map_iff in H as ((w, q) & [= <- <-] & H). exact (Hp _ _ H).
    - intros [[= <- <-]|[]]. lra.
  Qed.

  Context (cpds : sdict (cpd V (list W))) (s : scm V (list W)) (K : string -> list A -> law A).
  Hypothesis Hs : paper_scm m cpds = Ok s.
  Hypothesis Hd : forall v f, paper_var m v -> entry cpds v f -> draws seeds n f (K v).

  Lemma Hdraws v : paper_var m v -> exists f, sget (s_cpds s) v = Some f /\ draws seeds n f (K v).
  Proof.
    intro Hv. destruct (paper_scm_like cpds s Hs) as (_ & Ec & He). destruct (He v Hv) as (f & Ef).
    exists f. rewrite Ec. split; [exact Ef|]. apply Hd; [exact Hv|]. now apply entry_sget.
  Qed.
  Lemma Kmass v args : paper_var m v -> mean (K v args) (fun _ => 1%R) = 1%R.
  Proof. intro Hv. destruct (Hdraws v Hv) as (f & _ & H). exact (draws_mass f (K v) args H). Qed.
  Lemma Kpos v args : paper_var m v -> forall a p, In (a, p) (K v args) -> (0 <= p)%R.
  Proof. intro Hv. destruct (Hdraws v Hv) as (f & _ & H). exact (draws_pos f (K v) args H). Qed.

  Notation T := (tapes seeds k).
  Notation PM := (pmean (KV K) (KZ K) (seq 1 m)).
  Notation E := (drawn s n).

  Lemma law_of F : mean T (fun g => F (E g)) = PM (fun vs zs => mean (K "X" vs) (fun x => mean (K "Z0" [x]) (fun z0 =>
      mean (K "Y" (z0 :: zs)) (fun y => F (sget (full m vs zs x z0 y)))))).
  Proof. apply paper_law; [exact (proj1 (paper_scm_like cpds s Hs))|exact Hdraws]. Qed.

  Variable Y : option A -> R.
  Variable a : A.
  (** the mean response given Z_1..Z_m when the treatment is set to [a] *)
  Definition mu (zs : list A) : R := mean (K "Z0" [a]) (fun z0 => mean (K "Y" (z0 :: zs)) (fun y => Y (Some y))).
  Definition q (vs : list A) : R := mean (K "X" vs) (fun x => ind (eqb a x)).
  Definition mu_env (e : string -> option A) : R :=
    mu (map (fun i => match e (Zn i) with Some z => z | None => a end) (seq 1 m)).

  Lemma mu_env_full vs zs x z0 y : List.length vs = m -> List.length zs = m -> mu_env (sget (full m vs zs x z0 y)) = mu zs.
  Proof.
    intros Hv Hz. unfold mu_env. f_equal. pose proof (sget_full_Z m vs zs x z0 y Hv Hz) as H.
    set (r := full m vs zs x z0 y) in *. clearbody r. clear Hv Hz. revert zs H. generalize (seq 1 m).
    induction l as [|i l IH]; intros zs H; inversion H; subst; [reflexivity|]. cbn [map]. rewrite H2. f_equal. now apply IH.
  Qed.

  Lemma treated_law (h : list A -> list A -> R) :
    PM (fun vs zs => mean (K "X" vs) (fun x => mean (K "Z0" [x]) (fun z0 => mean (K "Y" (z0 :: zs)) (fun y => (h vs zs * (ind (eqb a x) * Y (Some y)))%R)))) =
    PM (fun vs zs => (h vs zs * (q vs * mu zs))%R).
  Proof.
    apply pmean_ext. intros vs zs _ _. unfold q. 
    rewrite <- mean_scal_r, <- mean_scal. apply mean_ext. intro x.
    rewrite (mean_ext (K "Z0" [x]) _ (fun z0 => (h vs zs * ind (eqb a x)) * mean (K "Y" (z0 :: zs)) (fun y => Y (Some y)))%R)
      by (intro z0; rewrite <- mean_scal; apply mean_ext; intro; lra).
    rewrite mean_scal. destruct (eqb a x) eqn:Ex; cbn [ind]; [apply Heq in Ex; subst x; unfold mu; lra|lra].
  Qed.
  Lemma any_law (h : list A -> list A -> R) :
    PM (fun vs zs => mean (K "X" vs) (fun x => mean (K "Z0" [x]) (fun z0 => mean (K "Y" (z0 :: zs)) (fun y => h vs zs)))) = PM h.
  Proof.
    apply pmean_ext. intros vs zs _ _.
    rewrite (mean_ext _ _ (fun _ => h vs zs)); [apply mean_const, Kmass; constructor|]. intro x.
    rewrite (mean_ext _ _ (fun _ => h vs zs)); [apply mean_const, Kmass; constructor|]. intro z0.
    apply mean_const, Kmass; constructor.
  Qed.
  Lemma treated_any_law (h : list A -> list A -> R) :
    PM (fun vs zs => mean (K "X" vs) (fun x => mean (K "Z0" [x]) (fun z0 => mean (K "Y" (z0 :: zs)) (fun y => (h vs zs * ind (eqb a x))%R)))) =
    PM (fun vs zs => (h vs zs * q vs)%R).
  Proof.
    apply pmean_ext. intros vs zs _ _. unfold q. rewrite <- mean_scal. apply mean_ext. intro x.
    rewrite (mean_ext _ _ (fun _ => (h vs zs * ind (eqb a x))%R)); [apply mean_const, Kmass; constructor|]. intro z0.
    apply mean_const, Kmass; constructor.
  Qed.

  (** *** the mean response with the treatment set to [a] *)
  Context (f : cpd V (list W)) (s' : scm V (list W)).
  Hypothesis Hf : forall args g, f n args g = (Ok a, g).
  Hypothesis Hs' : replaces s "X" f s'.

  Definition K' (v : string) (l : list A) : law A := if String.eqb v "X" then [(a, 1%R)] else K v l.

  Lemma law_do F : mean T (fun g => F (drawn s' n g)) =
    PM (fun vs zs => mean (K "Z0" [a]) (fun z0 => mean (K "Y" (z0 :: zs)) (fun y => F (sget (full m vs zs a z0 y))))).
  Proof.
    destruct Hs' as (Ev & Ep & _ & _ & _ & Ef & Eo).
    destruct (paper_scm_like cpds s Hs) as ((Hv & Ht & H) & Ec & He).
    rewrite (paper_law s' K' F).
    - assert (EK : forall l F, (forall i, In i l -> 1 <= i) -> pmean (KV K') (KZ K') l F = pmean (KV K) (KZ K) l F).
      { induction l as [|i l IH]; intros F' Hl; [reflexivity|]. cbn [pmean].
        change (KV K' i) with (KV K i). apply mean_ext. intro v. change (KZ K' i v) with (KZ K i v). apply mean_ext. intro z.
        apply IH. intros; apply Hl; now right. }
      rewrite EK by (intros i Hi; apply in_seq in Hi; lia). apply pmean_ext. intros vs zs _ _.
      change (K' "X" vs) with [(a, 1%R)]. change (K' "Z0") with (K "Z0"). change (K' "Y") with (K "Y"). cbn [mean]. lra.
    - split; [congruence|]. split; [|now rewrite Ep].
      intros pre v post p E1 (ps & E2 & E3). apply (Ht pre v post p); [congruence|]. exists ps. rewrite <- Ep. now split.
    - intros v Hvar. unfold K'. destruct (String.eqb_spec v "X") as [->|Hn].
      + exists f. split; [now apply entry_sget|]. right. exists a. split; [exact Hf|reflexivity].
      + destruct (Hdraws v Hvar) as (f' & E1 & E2). exists f'. split; [|exact E2].
        apply entry_sget, Eo, entry_sget; assumption.
  Qed.
  Lemma mean_do : mean T (fun g => Y (drawn s' n g "Y")) = PM (fun _ zs => mu zs).
  Proof.
    rewrite (law_do (fun e => Y (e "Y"%string))). apply pmean_ext. intros vs zs _ _. unfold mu.
    apply mean_ext. intro z0. apply mean_ext. intro y. now rewrite sget_full_Y.
  Qed.

  (** *** front door *)
  Definition mz (z0 : A) (zs : list A) : R := mean (K "Y" (z0 :: zs)) (fun y => Y (Some y)).
  Definition mz_env (z0 : A) (e : string -> option A) : R :=
    mz z0 (map (fun i => match e (Zn i) with Some z => z | None => a end) (seq 1 m)).
  Lemma mz_env_full z1 vs zs x z0 y : List.length vs = m -> List.length zs = m -> mz_env z1 (sget (full m vs zs x z0 y)) = mz z1 zs.
  Proof.
    intros Hv Hz. unfold mz_env. f_equal. pose proof (sget_full_Z m vs zs x z0 y Hv Hz) as H.
    set (r := full m vs zs x z0 y) in *. clearbody r. clear Hv Hz. revert zs H. generalize (seq 1 m).
    induction l as [|i l IH]; intros zs H; inversion H; subst; [reflexivity|]. cbn [map]. rewrite H2. f_equal. now apply IH.
  Qed.

  Lemma if_ind (b : bool) x : (if b then x else 0)%R = (ind b * x)%R.
  Proof. destruct b; cbn; lra. Qed.

  Definition qx (x0 : A) (vs : list A) : R := mean (K "X" vs) (fun x => ind (eqb x0 x)).
  Definition pz (x0 z1 : A) : R := mean (K "Z0" [x0]) (fun z => ind (eqb z1 z)).

  (** means over the units with treatment [x0] and mediator [z1] *)
  Lemma given_xz x0 z1 : (0 < prob T (fun g => same eqb (Some x0) (E g "X") && same eqb (Some z1) (E g "Z0")))%R ->
    mean_given T (fun g => same eqb (Some x0) (E g "X") && same eqb (Some z1) (E g "Z0")) (fun g => Y (E g "Y")) =
    mean_given T (fun g => same eqb (Some x0) (E g "X")) (fun g => mz_env z1 (E g)).
  Proof.
    intro Hp. unfold mean_given.
    assert (E1 : mean T (fun g => if same eqb (Some x0) (E g "X") && same eqb (Some z1) (E g "Z0") then Y (E g "Y") else 0%R) =
      (pz x0 z1 * PM (fun vs zs => qx x0 vs * mz z1 zs))%R).
    { rewrite (law_of (fun e => if same eqb (Some x0) (e "X"%string) && same eqb (Some z1) (e "Z0"%string) then Y (e "Y"%string) else 0%R)).
      rewrite <- pmean_scal. apply pmean_ext. intros vs zs _ _. unfold qx.
      rewrite <- mean_scal_r, <- mean_scal. apply mean_ext. intro x. unfold pz, mz.
      destruct (eqb x0 x) eqn:Ex; cbn [ind].
      - pose proof (proj1 (Heq x0 x) Ex) as <-. rewrite Rmult_1_l, <- mean_scal_r. apply mean_ext. intro z.
        destruct (eqb z1 z) eqn:Ez; cbn [ind].
        + pose proof (proj1 (Heq z1 z) Ez) as <-. rewrite Rmult_1_l. apply mean_ext. intro y.
          rewrite sget_full_X, sget_full_Z0, sget_full_Y. cbn [same]. rewrite Ex, Ez. reflexivity.
        + rewrite Rmult_0_l. transitivity (mean (K "Y" (z :: zs)) (fun _ => 0%R)); [|apply mean_zero]. apply mean_ext. intro y.
          rewrite sget_full_X, sget_full_Z0. cbn [same]. rewrite Ex, Ez. reflexivity.
      - rewrite Rmult_0_l, Rmult_0_r. transitivity (mean (K "Z0" [x]) (fun _ => 0%R)); [|apply mean_zero]. apply mean_ext. intro z.
        transitivity (mean (K "Y" (z :: zs)) (fun _ => 0%R)); [|apply mean_zero]. apply mean_ext. intro y. rewrite sget_full_X. cbn [same]. rewrite Ex. reflexivity. }
    assert (E2 : prob T (fun g => same eqb (Some x0) (E g "X") && same eqb (Some z1) (E g "Z0")) = (pz x0 z1 * PM (fun vs _ => qx x0 vs))%R).
    { unfold prob. rewrite (law_of (fun e => if same eqb (Some x0) (e "X"%string) && same eqb (Some z1) (e "Z0"%string) then 1%R else 0%R)).
      rewrite <- pmean_scal. apply pmean_ext. intros vs zs _ _. unfold qx.
      rewrite <- mean_scal. apply mean_ext. intro x. unfold pz.
      rewrite (mean_ext (K "Z0" [x]) _ (fun z => ind (eqb x0 x) * ind (eqb z1 z))%R).
      - rewrite mean_scal. destruct (eqb x0 x) eqn:Ex; cbn [ind]; [|lra]. apply Heq in Ex. subst x. lra.
      - intro z. rewrite (mean_ext _ _ (fun _ => (ind (eqb x0 x) * ind (eqb z1 z))%R)); [apply mean_const, Kmass; constructor|].
        intro y. rewrite sget_full_X, sget_full_Z0. cbn [same]. rewrite <- ind_and. reflexivity. }
    assert (E3 : mean T (fun g => if same eqb (Some x0) (E g "X") then mz_env z1 (E g) else 0%R) = PM (fun vs zs => (qx x0 vs * mz z1 zs)%R)).
    { rewrite (law_of (fun e => if same eqb (Some x0) (e "X"%string) then mz_env z1 e else 0%R)).
      apply pmean_ext. intros vs zs Hv Hz. rewrite seq_length in Hv, Hz. unfold qx. rewrite <- mean_scal_r. apply mean_ext. intro x.
      rewrite (mean_ext _ _ (fun _ => (ind (eqb x0 x) * mz z1 zs)%R)); [apply mean_const, Kmass; constructor|]. intro z.
      rewrite (mean_ext _ _ (fun _ => (ind (eqb x0 x) * mz z1 zs)%R)); [apply mean_const, Kmass; constructor|].
      intro y. rewrite sget_full_X, mz_env_full, if_ind by assumption. reflexivity. }
    assert (E4 : prob T (fun g => same eqb (Some x0) (E g "X")) = PM (fun vs _ => qx x0 vs)).
    { unfold prob. rewrite (law_of (fun e => if same eqb (Some x0) (e "X"%string) then 1%R else 0%R)).
      apply pmean_ext. intros vs zs Hv Hz. unfold qx. apply mean_ext. intro x.
      rewrite (mean_ext _ _ (fun _ => ind (eqb x0 x))); [apply mean_const, Kmass; constructor|]. intro z.
      rewrite (mean_ext _ _ (fun _ => ind (eqb x0 x))); [apply mean_const, Kmass; constructor|].
      intro y. rewrite sget_full_X. reflexivity. }
    rewrite E1, E2, E3, E4. rewrite E2 in Hp.
    assert (pz x0 z1 <> 0 /\ PM (fun vs _ => qx x0 vs) <> 0)%R as (H1 & H2) by (split; intro H0; rewrite H0 in Hp; lra).
    field. split; assumption.
  Qed.

  Lemma E_some g p v : In (g, p) T -> paper_var m v -> exists b, E g v = Some b.
  Proof.
    intros Hin Hv. destruct (paper_scm_like cpds s Hs) as ((Ev & Ht & E0 & EX & EY & EV & EZ) & _).
    assert (Hf0 : forall v, In v (s_vars s) -> fits seeds s n K (pa_of s) v).
    { intros u Hu. rewrite Ev in Hu. apply paper_vars_in in Hu. split; [|now apply Hdraws].
      unfold pa_of. destruct Hu; rewrite ?E0, ?EX, ?EY, ?EV, ?EZ by assumption; reflexivity. }
    destruct (gen_runs seeds s n K (pa_of s) (s_vars s) [] g Hf0) as (r & Er).
    - intros pre u post p' E1 Hp. right. apply (Ht pre u post p' E1). exists (pa_of s u). split; [|exact Hp].
      apply entry_sget. apply Hf0. rewrite E1. apply in_elt.
    - rewrite (tapes_length seeds k g p Hin), Ev, paper_vars_length. exact Hk.
    - rewrite (drawn_loop s n g r Er).
      destruct (gen_loop_logging s n (s_vars s) [] g []) as (log & El & _ & _ & Hr).
      { intros u b. cbn. split; [discriminate|]. intros ([|] & ? & ? & Ex & _); discriminate Ex. }
      destruct (Hr r Er) as (Hvars & Hget). cbn [app] in Hget.
      assert (Hin' : In v (s_vars s)) by (rewrite Ev; now apply paper_vars_in).
      destruct (sget r v) as [b|] eqn:Eb; [eauto|exfalso].
      assert (Hk' : forall vs sm g', (forall r, fst (gen_loop s n vs sm g') = Ok r -> forall u, In u vs \/ sget sm u <> None -> sget r u <> None)).
      { clear. induction vs as [|u vs IH]; intros sm g' r Er w Hw; cbn [gen_loop] in Er.
        - injection Er as <-. destruct Hw as [[]|H]. exact H.
        - destruct (sget (s_parents s) u); [|discriminate]. destruct (negb _); [discriminate|].
          destruct (mapM _ _) as [ar|]; [|discriminate]. destruct (sget (s_cpds s) u) as [h|]; [|discriminate].
          destruct (h n ar g') as ([b|] & g1); [|discriminate]. apply (IH _ _ _ Er).
          destruct (String.eqb_spec w u) as [->|Hne]; [right; rewrite sget_same; discriminate|].
          rewrite sget_other by exact Hne. destruct Hw as [[E|H]|H]; [congruence|now left|now right]. }
      exact (Hk' _ _ _ r Er v (or_introl Hin') Eb).
  Qed.

  Lemma front_door_law :
    front_overlap T (fun g => same eqb (Some a) (E g "X")) (fun g g' => same eqb (E g "X") (E g' "X")) (fun g g' => same eqb (E g "Z0") (E g' "Z0")) ->
    front_door T (fun g => same eqb (Some a) (E g "X")) (fun g g' => same eqb (E g "X") (E g' "X")) (fun g g' => same eqb (E g "Z0") (E g' "Z0"))
      (fun g => Y (E g "Y")) = mean T (fun g => Y (drawn s' n g "Y")).
  Proof.
    intros (Ha & Ho). destruct (tapes_law seeds k Hlaw) as (Hpos & _). unfold front_door.
    (* the inner mean *)
    set (M := fun o : option A => match o with Some z1 => PM (fun _ zs => mz z1 zs) | None => 0%R end).
    assert (EM : forall g p, In (g, p) T -> (0 < p)%R -> same eqb (Some a) (E g "X") = true ->
      mean T (fun o' => mean_given T (fun o'' => same eqb (E o' "X") (E o'' "X") && same eqb (E g "Z0") (E o'' "Z0")) (fun g => Y (E g "Y"))) = M (E g "Z0")).
    { intros g p Hg Hp Ht. destruct (E_some g p "Z0" Hg ltac:(constructor)) as (z1 & Ez).
      rewrite Ez. cbn [M].
      transitivity (mean T (fun o' => mean_given T (fun o'' => same eqb (E o' "X") (E o'' "X")) (fun g => mz_env z1 (E g)))).
      - apply mean_ext_pos; [exact Hpos|]. intros o' p' Ho' Hp'. destruct (E_some o' p' "X" Ho' ltac:(constructor)) as (x0 & Ex).
        pose proof (Ho g p o' p' Hg Hp Ht Ho' Hp') as H0. cbn beta in H0. rewrite Ex, Ez in H0. rewrite Ex. now apply given_xz.
      - rewrite (tower T (fun o' o'' => same eqb (E o' "X") (E o'' "X")) (fun g => mz_env z1 (E g)) Hpos).
        + rewrite (law_of (mz_env z1)). rewrite <- (any_law (fun _ zs => mz z1 zs)). apply pmean_ext. intros vs zs Hv Hz. rewrite seq_length in Hv, Hz.
          apply mean_ext. intro. apply mean_ext. intro. apply mean_ext. intro. now apply mz_env_full.
        + intro o. now apply same_iff.
        + intros o o' Hoo x. apply same_iff in Hoo; [|exact Heq]. now rewrite Hoo. }
    assert (E1 : mean_given T (fun g => same eqb (Some a) (E g "X")) (fun g =>
        mean T (fun o' => mean_given T (fun o'' => same eqb (E o' "X") (E o'' "X") && same eqb (E g "Z0") (E o'' "Z0")) (fun g => Y (E g "Y")))) =
      mean_given T (fun g => same eqb (Some a) (E g "X")) (fun g => M (E g "Z0"))).
    { unfold mean_given at 1 3. f_equal. apply mean_ext_pos; [exact Hpos|]. intros g p Hg Hp.
      destruct (same eqb (Some a) (E g "X")) eqn:Et; [|reflexivity]. exact (EM g p Hg Hp Et). }
    rewrite E1. clear E1 EM. unfold mean_given.
    assert (E2 : mean T (fun g => if same eqb (Some a) (E g "X") then M (E g "Z0") else 0%R) =
      (PM (fun vs _ => q vs) * mean (K "Z0" [a]) (fun z1 => PM (fun _ zs => mz z1 zs)))%R).
    { rewrite (law_of (fun e => if same eqb (Some a) (e "X"%string) then M (e "Z0"%string) else 0%R)).
      rewrite Rmult_comm, <- pmean_scal. apply pmean_ext. intros vs zs _ _. unfold q. rewrite <- mean_scal. apply mean_ext. intro x.
      destruct (eqb a x) eqn:Ex; cbn [ind].
      - pose proof (proj1 (Heq a x) Ex) as <-. rewrite Rmult_1_r. apply mean_ext. intro z.
        rewrite (mean_ext _ _ (fun _ => M (Some z))); [apply mean_const, Kmass; constructor|].
        intro y. rewrite sget_full_X, sget_full_Z0. cbn [same]. now rewrite Ex.
      - rewrite Rmult_0_r. transitivity (mean (K "Z0" [x]) (fun _ => 0%R)); [|apply mean_zero]. apply mean_ext. intro z. transitivity (mean (K "Y" (z :: zs)) (fun _ => 0%R)); [|apply mean_zero]. apply mean_ext. intro y.
        rewrite sget_full_X. cbn [same]. now rewrite Ex. }
    assert (E3 : prob T (fun g => same eqb (Some a) (E g "X")) = PM (fun vs _ => q vs)).
    { unfold prob. rewrite (law_of (fun e => if same eqb (Some a) (e "X"%string) then 1%R else 0%R)).
      apply pmean_ext. intros vs zs Hv Hz. unfold q. apply mean_ext. intro x.
      rewrite (mean_ext _ _ (fun _ => ind (eqb a x))); [apply mean_const, Kmass; constructor|]. intro z.
      rewrite (mean_ext _ _ (fun _ => ind (eqb a x))); [apply mean_const, Kmass; constructor|].
      intro y. rewrite sget_full_X. reflexivity. }
    rewrite E2, E3. rewrite E3 in Ha. rewrite mean_do.
    rewrite <- (pmean_mean (KV K) (KZ K) (K "Z0" [a]) (seq 1 m) (fun z1 _ zs => mz z1 zs)).
    change (PM (fun vs zs => mean (K "Z0" [a]) (fun b => mz b zs))) with (PM (fun _ zs => mu zs)). field. lra.
  Qed.

  (** *** adjustment for covariates whose agreement is a product over the paths *)
  Context (agr : (string -> option A) -> (string -> option A) -> bool) (wof : (string -> option A) -> list ((A -> R) * (A -> R))).
  Hypothesis Hagr : forall e, agr e e = true.
  Hypothesis Hcong : forall e e', agr e e' = true -> forall x, agr e x = agr e' x.
  Hypothesis Hwof : forall e vs zs x z0 y, List.length vs = m -> List.length zs = m ->
    ind (agr e (sget (full m vs zs x z0 y))) = wgt (wof e) vs zs.
  Hypothesis Hlen : forall e, List.length (wof e) = m.
  Hypothesis Hpoint : forall e, Forall (fun ab => pointed (fst ab) \/ pointed (snd ab)) (wof e).
  Notation treated := (fun g => same eqb (Some a) (E g "X")).
  Notation agree := (fun g g' => agr (E g) (E g')).

  Lemma adjust_law : overlap T treated agree -> adjusted T treated agree (fun g => Y (E g "Y")) = mean T (fun g => Y (drawn s' n g "Y")).
  Proof.
    intro Ho. rewrite mean_do.
    destruct (tapes_law seeds k Hlaw) as (Hpos & _).
    transitivity (mean T (fun g => mu_env (E g))).
    2: { rewrite (law_of mu_env). rewrite <- (any_law (fun _ zs => mu zs)). apply pmean_ext. intros vs zs Hv Hz. rewrite seq_length in Hv, Hz.
         apply mean_ext. intro. apply mean_ext. intro. apply mean_ext. intro. now apply mu_env_full. }
    rewrite <- (tower T agree (fun g => mu_env (E g)) Hpos).
    2: { intro. apply Hagr. }
    2: { intros o o' Hoo x. now apply Hcong. }
    unfold adjusted. apply mean_ext_pos; [exact Hpos|]. intros o p Hin Hp.
    specialize (Ho o p Hin Hp). cbn beta in Ho. unfold mean_given.
    set (es := wof (E o)).
    assert (E1 : mean T (fun g => if same eqb (Some a) (E g "X") && agr (E o) (E g) then Y (E g "Y") else 0%R) =
      PM (fun vs zs => (wgt es vs zs * (q vs * mu zs))%R)).
    { rewrite (law_of (fun e => if same eqb (Some a) (e "X"%string) && agr (E o) e then Y (e "Y"%string) else 0%R)).
      rewrite <- (treated_law (wgt es)). apply pmean_ext. intros vs zs Hv Hz. rewrite seq_length in Hv, Hz.
      apply mean_ext. intro x. apply mean_ext. intro z0. apply mean_ext. intro y.
      rewrite if_ind, ind_and, (Hwof (E o) vs zs x z0 y Hv Hz), sget_full_X, sget_full_Y. cbn [same]. fold es. ring. }
    assert (E2 : prob T (fun g => same eqb (Some a) (E g "X") && agr (E o) (E g)) = PM (fun vs zs => (wgt es vs zs * q vs)%R)).
    { unfold prob. rewrite (law_of (fun e => if same eqb (Some a) (e "X"%string) && agr (E o) e then 1%R else 0%R)).
      rewrite <- (treated_any_law (wgt es)). apply pmean_ext. intros vs zs Hv Hz. rewrite seq_length in Hv, Hz.
      apply mean_ext. intro x. apply mean_ext. intro z0. apply mean_ext. intro y.
      rewrite if_ind, ind_and, (Hwof (E o) vs zs x z0 y Hv Hz), sget_full_X. cbn [same]. fold es. ring. }
    assert (E3 : mean T (fun g => if agr (E o) (E g) then mu_env (E g) else 0%R) = PM (fun vs zs => (wgt es vs zs * mu zs)%R)).
    { rewrite (law_of (fun e => if agr (E o) e then mu_env e else 0%R)).
      rewrite <- (any_law (fun vs zs => wgt es vs zs * mu zs)%R). apply pmean_ext. intros vs zs Hv Hz. rewrite seq_length in Hv, Hz.
      apply mean_ext. intro x. apply mean_ext. intro z0. apply mean_ext. intro y.
      rewrite if_ind, (Hwof (E o) vs zs x z0 y Hv Hz), mu_env_full by assumption. reflexivity. }
    assert (E4 : prob T (fun g => agr (E o) (E g)) = PM (wgt es)).
    { unfold prob. rewrite (law_of (fun e => if agr (E o) e then 1%R else 0%R)).
      rewrite <- (any_law (wgt es)). apply pmean_ext. intros vs zs Hv Hz. rewrite seq_length in Hv, Hz.
      apply mean_ext. intro x. apply mean_ext. intro z0. apply mean_ext. intro y.
      rewrite if_ind, (Hwof (E o) vs zs x z0 y Hv Hz). fold es. ring. }
    assert (Hpa : (0 < prob T (fun g => agr (E o) (E g)))%R).
    { eapply Rlt_le_trans; [exact Ho|]. apply mean_le; [exact Hpos|]. intro g.
      destruct (same eqb (Some a) (E g "X")), (agr (E o) (E g)); cbn; lra. }
    rewrite E1, E2, E3, E4. rewrite E2 in Ho. rewrite E4 in Hpa.
    pose proof (independent (KV K) (KZ K) (seq 1 m) es q mu ltac:(rewrite seq_length; apply Hlen) (Hpoint (E o))) as HI.
    apply (Rmult_eq_reg_r (PM (fun vs zs => wgt es vs zs * q vs) * PM (wgt es))%R); [|nra].
    field_simplify; [|lra|lra]. lra.
  Qed.
End Ident.

(** back door *)
Lemma back_door_law {W V} (seeds : law W) n m k (eqb : arr V -> arr V -> bool) : is_law seeds -> decides eqb -> 2 * m + 3 <= k ->
  forall (cpds : sdict (cpd V (list W))) s (K : string -> list (arr V) -> law (arr V)), paper_scm m cpds = Ok s ->
  (forall v f, paper_var m v -> entry cpds v f -> draws seeds n f (K v)) ->
  forall (Y : option (arr V) -> R) a f s', (forall args g, f n args g = (Ok a, g)) -> replaces s "X" f s' ->
  forall names, on_paths m names -> blocks m names ->
  let treated := fun g => same eqb (Some a) (drawn s n g "X") in
  let agree := fun g g' => agree_on eqb names (drawn s n g) (drawn s n g') in
  overlap (tapes seeds k) treated agree ->
  adjusted (tapes seeds k) treated agree (fun g => Y (drawn s n g "Y")) = mean (tapes seeds k) (fun g => Y (drawn s' n g "Y")).
Proof.
  intros Hlaw Heq Hk cpds s K Hs Hd Y a f s' Hf Hs' names Hn Hb treated agree Ho.
  apply (adjust_law seeds n m k eqb Hlaw Heq Hk cpds s K Hs Hd Y a f s' Hf Hs' (agree_on eqb names)
    (fun e => weights eqb names e (seq 1 m))); trivial.
  - intro. now apply agree_refl.
  - intros e e' H x. now apply agree_cong.
  - intros. now apply agree_weights.
  - intro e. rewrite weights_length. apply seq_length.
  - intro e. now apply weights_pointed.
Qed.
