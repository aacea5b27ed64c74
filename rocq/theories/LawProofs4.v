(** Proofs about what the back-door arms see. *)
From Coq Require Import List Arith ZArith Bool String Reals Lra Lia.
From Verif Require Import PyBase DataModel ScmModel ScmProofs ScmProps PaperModel PaperSpec PaperProofs PaperProofs2 PaperProofs3
  ScmSpec LawSpec LawProofs LawProofs2 LawProofs3.
Import ListNotations.
Open Scope nat_scope.
Open Scope list_scope.

Lemma arr_ext {V} (a b : arr V) : atail a = atail b -> List.length (arows a) = List.length (arows b) ->
  (forall u, u < List.length (arows a) -> row a u = row b u) -> a = b.
Proof.
  destruct a as [ta ra], b as [tb rb]. cbn [atail arows]. intros -> Hl H. f_equal. now apply (nth_ext _ _ [] []).
Qed.
Lemma take_at_eq {X} (js : list nat) (l l' : list X) : List.length l = List.length l' -> Forall (fun j => j < List.length l) js ->
  (take_at js l = take_at js l' <-> forall j, In j js -> nth_error l j = nth_error l' j).
Proof.
  intros Hl. unfold take_at. induction js as [|j js IH]; intro HF; [cbn; split; [intros _ j []|reflexivity]|].
  inversion HF as [|? ? Hj HF']; subst. specialize (IH HF'). cbn [flat_map].
  destruct (nth_error l j) as [y|] eqn:E1; [|apply nth_error_None in E1; lia].
  destruct (nth_error l' j) as [y'|] eqn:E2; [|apply nth_error_None in E2; lia]. split.
  - cbn [app]. intros [= -> H] i [<-|Hi]; [congruence|]. now apply IH.
  - intro H. pose proof (H j (or_introl eq_refl)) as Hj0. rewrite E1, E2 in Hj0. injection Hj0 as ->. cbn [app]. f_equal.
    apply IH. intros; apply H; now right.
Qed.
Lemma Forall2_length_eq {X Z} (R : X -> Z -> Prop) l l' : Forall2 R l l' -> List.length l = List.length l'.
Proof. induction 1; cbn; congruence. Qed.
Lemma Forall2_nth_error {X Z} (R : X -> Z -> Prop) l l' : Forall2 R l l' -> forall i x, nth_error l i = Some x -> exists y, nth_error l' i = Some y /\ R x y.
Proof. induction 1; intros [|i] z E; cbn in *; try discriminate; [injection E as <-; eauto|eauto]. Qed.

Section Seen.
  Context {W V : Type} (seeds : law W) (n m k : nat).
  Hypothesis Hk : 2 * m + 3 <= k.
  Context (cpds : sdict (cpd V (list W))) (s : scm V (list W)) (K : string -> list (arr V) -> law (arr V)).
  Hypothesis Hs : paper_scm m cpds = Ok s.
  Hypothesis Hd : forall v f, paper_var m v -> entry cpds v f -> draws seeds n f (K v).
  Context (zd vd : list nat).
  Hypothesis Hreg : regular (tapes seeds k) s n m zd vd.

  Lemma latest_drawn g d g' log : generate (logging s) n (g, []) = (Ok d, (g', log)) ->
    forall v b, latest log v b <-> drawn s n g v = Some b.
  Proof.
    intros Hg v b. unfold drawn. rewrite Hg. cbn [snd]. split; [apply find_latest|apply find_none].
  Qed.

  Lemma run_ok g p : In (g, p) (tapes seeds k) -> exists d g' log, generate (logging s) n (g, []) = (Ok d, (g', log)) /\ n_units d = n.
  Proof.
    intro Hin. destruct (paper_scm_like m cpds s Hs) as ((Ev & Ht & E0 & EX & EY & EV & EZ) & _).
    destruct (paper_scm_ok m cpds (proj1 (paper_scm_inv _ _ _ Hs))) as (s1 & E1 & _ & _ & Hcov & Htrt & Hrsp & _).
    rewrite Hs in E1. injection E1 as <-.
    assert (Hf0 : forall v, In v (s_vars s) -> fits seeds s n K (pa_of s) v).
    { intros u Hu. rewrite Ev in Hu. apply paper_vars_in in Hu. split; [|exact (Hdraws seeds n m cpds s K Hs Hd u Hu)].
      unfold pa_of. destruct Hu; rewrite ?E0, ?EX, ?EY, ?EV, ?EZ by assumption; reflexivity. }
    destruct (gen_runs seeds s n K (pa_of s) (s_vars s) [] g Hf0) as (r & Er).
    - intros pre u post p' E1 Hp. right. apply (Ht pre u post p' E1). exists (pa_of s u). split; [|exact Hp].
      apply entry_sget. apply Hf0. rewrite E1. apply in_elt.
    - rewrite (tapes_length seeds k g p Hin), Ev, (paper_vars_length m k Hk). exact Hk.
    - pose proof (drawn_loop s n g r Er) as Hdr.
      assert (Hsome : forall v, paper_var m v -> exists b, sget r v = Some b).
      { intros v Hv. rewrite <- Hdr. exact (E_some seeds n m k Hk cpds s K Hs Hd g p v Hin Hv). }
      destruct (Hreg g p Hin) as (Hdm & Hrows).
      assert (Hlay : forall v, In v (layout m) -> paper_var m v).
      { intros v [<-|Hv]; [constructor|]. apply in_flat_map in Hv as (i & Hi & [<-|[<-|[]]]); apply in_seq in Hi; constructor; lia. }
      assert (HF : exists cols, Forall2 (fun v b => sget r v = Some b) (layout m) cols).
      { revert Hlay. generalize (layout m). induction l as [|v l IH]; intro H; [exists []; constructor|].
        destruct (Hsome v (H v (or_introl eq_refl))) as (b & Eb). destruct IH as (cols & Hc); [intros; apply H; now right|].
        exists (b :: cols). now constructor. }
      destruct HF as (cols & HF).
      assert (HF' : Forall2 (fun v b => drawn s n g v = Some b) (layout m) cols).
      { revert HF. apply Forall2_impl_in. intros v b _ H. now rewrite Hdr. }
      destruct (cols_shaped zd vd m _ cols Hdm HF') as (Hw & Hsh).
      destruct (column_stack_succeeds n [] cols) as (x & Ex).
      { intro E. subst. inversion HF. }
      { intros c Hc. split; [|destruct (Hsh c Hc) as (-> & _); reflexivity].
        assert (exists v, In v (layout m) /\ drawn s n g v = Some c) as (v & Hv & Evc).
        { clear - HF' Hc. induction HF'; [destruct Hc|]. destruct Hc as [<-|Hc]; [exists x; split; [now left|assumption]|].
          destruct (IHHF' Hc) as (v & Hv & E). exists v. split; [now right|exact E]. }
        exact (Hrows v c (Hlay v Hv) Evc). }
      destruct (Hsome "X"%string ltac:(constructor)) as (t & Et). destruct (Hsome "Y"%string ltac:(constructor)) as (y & Ey).
      set (d := ed_init (Some x) (Some t) (Some y)).
      assert (Hgen : exists g', generate s n g = (Ok d, g')).
      { unfold generate. destruct (gen_loop s n (s_vars s) [] g) as (rr, g1). cbn [fst] in Er. subst rr. exists g1.
        rewrite Hcov, (proj2 (mapM_sfind_Forall2 r (layout m) cols) HF). cbn [bind]. rewrite Ex. cbn [bind].
        unfold sfind. rewrite Htrt, Hrsp, Et, Ey. reflexivity. }
      destruct Hgen as (g' & Hgen). destruct (C21_result s n g d g' Hgen) as (log & Hlog & _).
      exists d, g', log. split; [exact Hlog|].
      destruct (column_stack_ok cols x Ex) as (Hne & _ & Hl & _). destruct cols as [|c cols]; [contradiction|].
      assert (Hz0 : drawn s n g "Z0" = Some c) by (unfold layout in HF'; inversion HF'; assumption).
      unfold d. cbn [n_units ed_init]. unfold alen. rewrite <- (Hl c (or_introl eq_refl)).
      apply (Hrows "Z0"%string c); [constructor|exact Hz0].
  Qed.


  (** *** the covariates column by column *)
  Definition cell_at (g : list W) (v : string) (u c : nat) : option V :=
    match drawn s n g v with Some a => nth_error (row a u) c | None => None end.

  Lemma block_cells g v (a : arr V) d u : drawn s n g v = Some a -> shaped d a -> u < List.length (arows a) ->
    Forall2 (fun vc y => cell_at g (fst vc) u (snd vc) = Some y) (map (pair v) (seq 0 d)) (row a u).
  Proof.
    clear Hk Hreg Hd Hs. intros Ea (_ & Hs') Hu.
    assert (Hl : List.length (row a u) = d).
    { unfold row. rewrite Forall_forall in Hs'. apply Hs', nth_In, Hu. }
    assert (H : forall l pre, row a u = pre ++ l -> Forall2 (fun vc y => cell_at g (fst vc) u (snd vc) = Some y) (map (pair v) (seq (List.length pre) (List.length l))) l).
    { induction l as [|y l IH]; intros pre E; [constructor|]. cbn [List.length seq map]. constructor.
      - cbn [fst snd]. unfold cell_at. rewrite Ea, E, nth_error_app2, Nat.sub_diag by lia. reflexivity.
      - specialize (IH (pre ++ [y])). rewrite app_length, Nat.add_1_r in IH. apply IH. now rewrite <- app_assoc. }
    specialize (H (row a u) [] eq_refl). rewrite Hl in H. exact H.
  Qed.

  Lemma labelled g p : In (g, p) (tapes seeds k) -> exists d g' x, generate s n g = (Ok d, g') /\ dcov d = Some x /\
    atail x = [list_sum (dims_layout zd vd m)] /\ List.length (arows x) = n /\
    forall u, u < n -> Forall2 (fun vc y => cell_at g (fst vc) u (snd vc) = Some y) (labels zd vd m) (row x u).
  Proof.
    intro Hin. destruct (run_ok g p Hin) as (d & g' & log & Hg & Hn).
    pose proof (latest_drawn g d g' log Hg) as Hl. destruct (Hreg g p Hin) as (Hdm & Hrows).
    assert (Hd0 : has_dims zd vd m (latest log)).
    { destruct Hdm as (H0 & HZ & HV). split; [|split].
      - intros b H. apply H0. now apply Hl.
      - intros i b Hi H. apply (HZ i b Hi). now apply Hl.
      - intros i b Hi H. apply (HV i b Hi). now apply Hl. }
    destruct (run_facts m cpds s n g d g' log zd vd Hs Hg Hd0) as (cols & x & HF & Hside & Hx & Hnx & _ & _ & Hat).
    destruct (C21_calls s n g) as (log' & E & _). rewrite Hg in E. destruct (generate s n g) as (r1, g1) eqn:Eg.
    cbn [fst snd] in E. injection E as <- _ _. exists d, g1, x. split; [reflexivity|]. split; [exact Hx|].
    split; [exact Hat|]. split; [congruence|]. intros u Hu.
    destruct Hside as (_ & _ & Hlen & Hrow). unfold row at 1. rewrite Hrow by congruence. clear Hrow.
    assert (Hu' : forall c, In c cols -> u < List.length (arows c)) by (intros c Hc; rewrite (Hlen c Hc); congruence).
    clear Hlen Hat Hx. destruct Hdm as (H0 & HZ & HV). unfold labels, layout in *.
    inversion HF as [|? a0 ? rest Ha0 HF' E1 E2]; subst cols. cbn [map List.concat]. apply Forall2_app.
    - apply Hl in Ha0. apply block_cells; [exact Ha0|exact (H0 a0 Ha0)|apply Hu'; now left].
    - assert (Hu2 : forall c, In c rest -> u < List.length (arows c)) by (intros; apply Hu'; now right).
      assert (Hb : forall i, In i (seq 1 m) -> 1 <= i <= m) by (intros i Hi; apply in_seq in Hi; lia).
      clear - HF' Hu2 Hb Hl HZ HV. revert rest HF' Hu2 Hb. generalize (seq 1 m).
      induction l as [|i l IH]; intros rest HF' Hu2 Hb; cbn [flat_map app] in *; [inversion HF'; constructor|].
      inversion HF' as [|? v ? r1 Hv HF1 E1 E2]; subst. inversion HF1 as [|? z ? r2 Hz HF2 E1 E2]; subst.
      apply Hl in Hv. apply Hl in Hz. cbn [map List.concat]. rewrite <- app_assoc.
      apply Forall2_app; [|apply Forall2_app].
      + apply block_cells; [exact Hv|exact (HV i v (Hb i (or_introl eq_refl)) Hv)|apply Hu2; now left].
      + apply block_cells; [exact Hz|exact (HZ i z (Hb i (or_introl eq_refl)) Hz)|apply Hu2; right; now left].
      + apply IH; [exact HF2|intros; apply Hu2; now do 2 right|intros; apply Hb; now right].
  Qed.

  Lemma labels_length : dims_fit zd vd m -> List.length (labels zd vd m) = list_sum zd + list_sum vd.
  Proof.
    intros (_ & Hz & Hv & H0 & _). rewrite <- (dims_layout_sum zd vd m Hz Hv), H0, Nat.add_0_r.
    unfold labels, dims_layout. rewrite app_length, map_length, seq_length.
    match goal with |- _ = list_sum (?a :: ?b) => change (list_sum (a :: b)) with (a + list_sum b) end. f_equal.
    induction (seq 1 m) as [|i l IH]; [reflexivity|]. cbn [flat_map]. rewrite !app_length, !map_length, !seq_length, IH.
    cbn [app]. match goal with |- _ = list_sum (?a :: ?b :: ?l) => change (list_sum (a :: b :: l)) with (a + (b + list_sum l)) end. lia.
  Qed.

  Context (j : nat).
  Hypothesis Hfit : dims_fit zd vd m.
  Notation cols := (arm_columns zd vd m j).
  Notation sees := (seen s n (arm_mask zd vd m j)).

  Lemma seen_facts g p : In (g, p) (tapes seeds k) -> exists c x, sees g = Some c /\
    atail c = [arm_dim zd vd m j] /\ List.length (arows c) = n /\
    forall u, u < n -> row c u = take_at cols (row x u) /\
      Forall2 (fun vc y => cell_at g (fst vc) u (snd vc) = Some y) (labels zd vd m) (row x u).
  Proof.
    intro Hin. destruct (labelled g p Hin) as (d & g' & x & Hg & Hx & Hat & Hn & Hlab).
    destruct Hfit as (Hm & Hz & Hv & H0 & Hpos).
    destruct (arm_select zd vd m j d x Hz Hv H0) as (r & c & Er & Ec & _ & _ & Hat' & Hlen & Hrow); trivial.
    { right. apply blocks_nonempty_spec. intros i Hi. destruct (Hpos i Hi). destruct (observes_v j i); assumption. }
    exists c, x. split; [unfold seen; rewrite Hg; cbn [fst]; rewrite Er; exact Ec|]. split; [exact Hat'|].
    split; [congruence|]. intros u Hu. split; [apply Hrow; congruence|now apply Hlab].
  Qed.

  Lemma seen_cells g p g' p' : In (g, p) (tapes seeds k) -> In (g', p') (tapes seeds k) ->
    (sees g = sees g' <-> forall v c, gets zd vd m cols v c -> forall u, u < n -> cell_at g v u c = cell_at g' v u c).
  Proof.
    intros H H'. destruct (seen_facts g p H) as (c & x & -> & Tc & Lc & Rc). destruct (seen_facts g' p' H') as (c' & x' & -> & Tc' & Lc' & Rc').
    assert (Hb : forall u, u < n -> List.length (row x u) = List.length (row x' u) /\ Forall (fun j => j < List.length (row x u)) cols).
    { intros u Hu. destruct (Rc u Hu) as (_ & F). destruct (Rc' u Hu) as (_ & F'). apply Forall2_length_eq in F, F'.
      split; [congruence|]. rewrite <- F, (labels_length Hfit). apply Forall_forall. intros y. apply arm_columns_bound. }
    split.
    - intros [= ->] v col (q & Hq & Eq) u Hu. destruct (Rc u Hu) as (R1 & F). destruct (Rc' u Hu) as (R2 & F'). destruct (Hb u Hu) as (Hl & HF).
      rewrite R1 in R2. pose proof (proj1 (take_at_eq cols (row x u) (row x' u) Hl HF) R2 q Hq) as E.
      destruct (Forall2_nth_error _ _ _ F q _ Eq) as (y & Ey & Cy). destruct (Forall2_nth_error _ _ _ F' q _ Eq) as (y' & Ey' & Cy').
      cbn [fst snd] in *. congruence.
    - intro Hc. f_equal. apply arr_ext; [congruence|congruence|]. rewrite Lc. intros u Hu.
      destruct (Rc u Hu) as (-> & F). destruct (Rc' u Hu) as (-> & F'). destruct (Hb u Hu) as (Hl & HF). apply take_at_eq; trivial.
      intros q Hq. rewrite Forall_forall in HF. pose proof (HF q Hq) as Hlt.
      pose proof (Forall2_length_eq _ _ _ F) as HL. destruct (nth_error (labels zd vd m) q) as [(v, col)|] eqn:Eq; [|apply nth_error_None in Eq; lia].
      destruct (Forall2_nth_error _ _ _ F q _ Eq) as (y & Ey & Cy). destruct (Forall2_nth_error _ _ _ F' q _ Eq) as (y' & Ey' & Cy').
      cbn [fst snd] in *. rewrite Ey, Ey', <- Cy, <- Cy'. apply Hc; [|exact Hu]. exists q. now split.
  Qed.
End Seen.

(** ** agreement on the columns one gets, variable by variable *)
Section Columns.
  Context {V : Type} (eqb : arr V -> arr V -> bool) (Heq : decides eqb) (zd vd : list nat) (m : nat) (cols : list nat).
  Notation A := (arr V).

  Definition getsb (v : string) (c : nat) : bool :=
    existsb (fun p => match nth_error (labels zd vd m) p with Some (v', c') => String.eqb v v' && (c =? c') | None => false end) cols.
  Lemma getsb_iff v c : getsb v c = true <-> gets zd vd m cols v c.
  Proof.
    unfold getsb, gets. rewrite existsb_exists. split; intros (p & Hp & H); exists p; (split; [exact Hp|]).
    - destruct (nth_error (labels zd vd m) p) as [(v', c')|]; [|discriminate]. apply andb_prop in H as (H1 & H2).
      apply String.eqb_eq in H1. apply Nat.eqb_eq in H2. congruence.
    - rewrite H, String.eqb_refl, Nat.eqb_refl. reflexivity.
  Qed.

  Definition pick (v : string) (d : nat) (a : A) : A := mkArr [] (map (take_at (filter (getsb v) (seq 0 d))) (arows a)).
  Definition all_of (v : string) (d : nat) : bool := forallb (getsb v) (seq 0 d).
  Definition agree1 (v : string) (d : nat) (x y : option A) : bool :=
    if all_of v d then same eqb x y else same eqb (option_map (pick v d) x) (option_map (pick v d) y).
  Definition agr (e e' : string -> option A) : bool :=
    forallb (fun i => agree1 (Vn i) (nth i vd 0) (e (Vn i)) (e' (Vn i)) && agree1 (Zn i) (nth i zd 0) (e (Zn i)) (e' (Zn i))) (seq 1 m).
  Definition wof (e : string -> option A) : list ((A -> R) * (A -> R)) :=
    map (fun i => ((fun v => ind (agree1 (Vn i) (nth i vd 0) (e (Vn i)) (Some v))), (fun z => ind (agree1 (Zn i) (nth i zd 0) (e (Zn i)) (Some z))))) (seq 1 m).

  Lemma agree1_refl v d x : agree1 v d x x = true.
  Proof. unfold agree1. destruct (all_of v d); now apply same_iff. Qed.
  Lemma agree1_cong v d x y z : agree1 v d x y = true -> agree1 v d x z = agree1 v d y z.
  Proof.
    unfold agree1. destruct (all_of v d); intro H; apply same_iff in H; trivial; now rewrite H.
  Qed.
  Lemma agr_refl e : agr e e = true.
  Proof. apply forallb_forall. intros i _. now rewrite !agree1_refl. Qed.
  Lemma agr_cong e e' : agr e e' = true -> forall x, agr e x = agr e' x.
  Proof.
    unfold agr. intros H x. rewrite forallb_forall in H. 
    induction (seq 1 m) as [|i l IH]; [reflexivity|]. cbn [forallb]. rewrite IH by (intros; apply H; now right).
    specialize (H i (or_introl eq_refl)). apply andb_prop in H as (H1 & H2).
    now rewrite (agree1_cong _ _ _ _ (x (Vn i)) H1), (agree1_cong _ _ _ _ (x (Zn i)) H2).
  Qed.
  Lemma agr_wof e vs zs x z0 y : List.length vs = m -> List.length zs = m ->
    ind (agr e (sget (full m vs zs x z0 y))) = wgt (wof e) vs zs.
  Proof.
    intros Hv Hz. set (r := full m vs zs x z0 y).
    pose proof (sget_full_V m vs zs x z0 y Hv Hz) as FV. pose proof (sget_full_Z m vs zs x z0 y Hv Hz) as FZ.
    fold r in FV, FZ. clearbody r. unfold agr, wof. clear Hv Hz. revert vs zs FV FZ. generalize (seq 1 m).
    induction l as [|i l IH]; intros vs zs FV FZ; cbn [map wgt forallb].
    - inversion FV; subst. inversion FZ; subst. reflexivity.
    - inversion FV as [|? v ? vs' Ev FV']; subst. inversion FZ as [|? z ? zs' Ez FZ']; subst.
      rewrite !ind_and, Ev, Ez. cbn [wgt]. f_equal. now apply IH.
  Qed.
  Lemma wof_length e : List.length (wof e) = m.
  Proof. unfold wof. now rewrite map_length, seq_length. Qed.
  Lemma all_of_iff v d : all_of v d = true <-> forall c, c < d -> gets zd vd m cols v c.
  Proof.
    unfold all_of. rewrite forallb_forall. split.
    - intros H c Hc. apply getsb_iff, H, in_seq. lia.
    - intros H c Hc. apply in_seq in Hc. apply getsb_iff, H. lia.
  Qed.
  Lemma wof_pointed e : covers zd vd m cols -> Forall (fun ab => pointed (fst ab) \/ pointed (snd ab)) (wof e).
  Proof.
    intro Hc. apply Forall_forall. intros ab Hin. apply in_map_iff in Hin as (i & <- & Hi). apply in_seq in Hi. cbn [fst snd].
    destruct (Hc i ltac:(lia)) as [H|H]; apply all_of_iff in H; [left; exists (e (Vn i))|right; exists (e (Zn i))];
      intros v Hv; unfold agree1 in Hv; rewrite H in Hv; unfold ind in Hv;
      match type of Hv with (if ?b then _ else _) <> _ => destruct b eqn:E; [now apply same_iff in E|lra] end.
  Qed.

  (** on arrays of the declared shape *)
  Lemma row_shaped (a : A) d u : shaped d a -> u < List.length (arows a) -> List.length (row a u) = d.
  Proof. intros (_ & H) Hu. unfold row. rewrite Forall_forall in H. apply H, nth_In, Hu. Qed.
  Lemma nth_error_ext {X} (l l' : list X) : List.length l = List.length l' -> (forall i, i < List.length l -> nth_error l i = nth_error l' i) -> l = l'.
  Proof.
    revert l'. induction l as [|x l IH]; intros [|x' l'] Hl H; cbn in *; try lia; trivial.
    pose proof (H 0 ltac:(lia)) as H0. injection H0 as ->. f_equal. apply IH; [lia|]. intros i Hi. exact (H (S i) ltac:(lia)).
  Qed.
  Lemma agree1_cells v d n (a b : A) : shaped d a -> shaped d b -> List.length (arows a) = n -> List.length (arows b) = n ->
    (agree1 v d (Some a) (Some b) = true <-> forall c, c < d -> gets zd vd m cols v c -> forall u, u < n -> nth_error (row a u) c = nth_error (row b u) c).
  Proof.
    intros Sa Sb La Lb. unfold agree1. destruct (all_of v d) eqn:Ea.
    - rewrite same_iff by exact Heq. rewrite all_of_iff in Ea. split; [now intros [= ->]|].
      intro H. f_equal. apply arr_ext; [destruct Sa as (-> & _); destruct Sb as (-> & _); reflexivity|congruence|].
      intros u Hu. apply nth_error_ext; [rewrite !(row_shaped _ d) by (trivial; congruence); reflexivity|].
      intros c Hc. rewrite (row_shaped a d u Sa Hu) in Hc. apply H; [exact Hc|now apply Ea|congruence].
    - rewrite same_iff by exact Heq. cbn [option_map].
      assert (Hb : forall c, In c (filter (getsb v) (seq 0 d)) <-> c < d /\ gets zd vd m cols v c).
      { intro c. rewrite filter_In, in_seq, getsb_iff. intuition lia. }
      assert (Hf : forall u, u < n -> (take_at (filter (getsb v) (seq 0 d)) (row a u) = take_at (filter (getsb v) (seq 0 d)) (row b u) <->
        forall c, In c (filter (getsb v) (seq 0 d)) -> nth_error (row a u) c = nth_error (row b u) c)).
      { intros u Hu. apply take_at_eq; rewrite !(row_shaped _ d) by (trivial; congruence); [reflexivity|].
        apply Forall_forall. intros c Hc. now apply Hb in Hc. }
      unfold pick. split.
      + intros [= E] c Hc Hg u Hu. apply (proj1 (Hf u Hu)); [|now apply Hb].
        pose proof (f_equal (fun l => nth u l (take_at (filter (getsb v) (seq 0 d)) [])) E) as Eu. cbn beta in Eu.
        rewrite !map_nth in Eu. exact Eu.
      + intro H. do 2 f_equal. apply (nth_ext _ _ (take_at (filter (getsb v) (seq 0 d)) []) (take_at (filter (getsb v) (seq 0 d)) []));
          [rewrite !map_length; congruence|]. intros u Hu. rewrite map_length in Hu. rewrite !map_nth. apply Hf; [congruence|].
        intros c Hc. apply Hb in Hc as (Hc & Hg). apply H; trivial. congruence.
  Qed.
End Columns.

(** ** an arm's columns belong to variables on the paths *)
Lemma sum_firstn_head (l : list nat) i : 1 <= i -> nth 0 l 0 <= list_sum (firstn i l).
Proof. intro H. destruct i as [|i]; [lia|]. destruct l as [|x l]; cbn; [lia|]. lia. Qed.
Lemma sum_head (l : list nat) : nth 0 l 0 <= list_sum l.
Proof. destruct l as [|x l]; cbn; lia. Qed.
Lemma arm_columns_low zd vd m j p : In p (arm_columns zd vd m j) -> nth 0 zd 0 <= p.
Proof.
  unfold arm_columns. intro H. apply in_flat_map in H as (i & Hi & H). apply in_seq in Hi. unfold v_block, z_block in H.
  destruct (observes_v j i); apply in_seq in H.
  - pose proof (sum_head zd). lia.
  - pose proof (sum_firstn_head zd i ltac:(lia)). lia.
Qed.
Lemma gets_path zd vd m j v c : gets zd vd m (arm_columns zd vd m j) v c ->
  exists i, 1 <= i <= m /\ ((v = Vn i /\ c < nth i vd 0) \/ (v = Zn i /\ c < nth i zd 0)).
Proof.
  intros (p & Hp & E). apply arm_columns_low in Hp. unfold labels in E.
  rewrite nth_error_app2 in E; rewrite map_length, seq_length in *; [|exact Hp].
  apply nth_error_In in E. apply in_flat_map in E as (i & Hi & E). apply in_seq in Hi. exists i. split; [lia|].
  apply in_app_or in E as [E|E]; apply in_map_iff in E as (c' & E & Hc); apply in_seq in Hc; injection E as <- <-; [left|right]; split; trivial; lia.
Qed.

Section Agree.
  Context {W V : Type} (seeds : law W) (n m k : nat).
  Hypothesis Hk : 2 * m + 3 <= k.
  Context (cpds : sdict (cpd V (list W))) (s : scm V (list W)) (K : string -> list (arr V) -> law (arr V)).
  Hypothesis Hs : paper_scm m cpds = Ok s.
  Hypothesis Hd : forall v f, paper_var m v -> entry cpds v f -> draws seeds n f (K v).
  Context (zd vd : list nat).
  Hypothesis Hreg : regular (tapes seeds k) s n m zd vd.
  Context (j : nat) (eqb : arr V -> arr V -> bool).
  Hypothesis Hfit : dims_fit zd vd m.
  Hypothesis Heq : decides eqb.

  Lemma seen_agr g p g' p' : In (g, p) (tapes seeds k) -> In (g', p') (tapes seeds k) ->
    same eqb (seen s n (arm_mask zd vd m j) g) (seen s n (arm_mask zd vd m j) g') =
    agr eqb zd vd m (arm_columns zd vd m j) (drawn s n g) (drawn s n g').
  Proof.
    intros H H'. apply eq_true_iff_eq. rewrite (same_iff eqb Heq).
    rewrite (seen_cells seeds n m k Hk cpds s K Hs Hd zd vd Hreg j Hfit g p g' p' H H').
    unfold agr. rewrite forallb_forall.
    destruct (Hreg g p H) as ((_ & HZ & HV) & Hn). destruct (Hreg g' p' H') as ((_ & HZ' & HV') & Hn').
    assert (Hone : forall v d, paper_var m v -> (forall a, drawn s n g v = Some a -> shaped d a) -> (forall a, drawn s n g' v = Some a -> shaped d a) ->
      (agree1 eqb zd vd m (arm_columns zd vd m j) v d (drawn s n g v) (drawn s n g' v) = true <->
       forall c, c < d -> gets zd vd m (arm_columns zd vd m j) v c -> forall u, u < n -> cell_at n s g v u c = cell_at n s g' v u c)).
    { intros v d Hv S1 S2.
      destruct (E_some seeds n m k Hk cpds s K Hs Hd g p v H Hv) as (a & Ea).
      destruct (E_some seeds n m k Hk cpds s K Hs Hd g' p' v H' Hv) as (b & Eb).
      unfold cell_at. rewrite Ea, Eb. apply agree1_cells; [exact Heq|now apply S1|now apply S2|exact (Hn v a Hv Ea)|exact (Hn' v b Hv Eb)]. }
    split.
    - intros HC i Hi. apply in_seq in Hi. apply andb_true_intro. split; apply Hone; try (constructor; lia).
      + intros a. apply HV. lia.
      + intros a. apply HV'. lia.
      + intros c _ Hg. now apply HC.
      + intros a. apply HZ. lia.
      + intros a. apply HZ'. lia.
      + intros c _ Hg. now apply HC.
    - intros HA v c Hg. destruct (gets_path zd vd m j v c Hg) as (i & Hi & Hv).
      specialize (HA i ltac:(apply in_seq; lia)). apply andb_prop in HA as (A1 & A2).
      destruct Hv as [(-> & Hc)|(-> & Hc)].
      + refine (proj1 (Hone (Vn i) (nth i vd 0) _ _ _) A1 c Hc Hg); [now constructor|intros a; now apply HV|intros a; now apply HV'].
      + refine (proj1 (Hone (Zn i) (nth i zd 0) _ _ _) A2 c Hc Hg); [now constructor|intros a; now apply HZ|intros a; now apply HZ'].
  Qed.
End Agree.
