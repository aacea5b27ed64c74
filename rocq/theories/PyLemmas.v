(** Lemmas about [PyBase]. *)
From Coq Require Import List Arith ZArith Lia Bool Permutation.
From Verif Require Import PyBase.
Import ListNotations.

Lemma bind_ok {X Y} (r : res X) (k : X -> res Y) y :
  bind r k = Ok y -> exists x, r = Ok x /\ k x = Ok y.
Proof. destruct r; simpl; intros H; [eauto | discriminate]. Qed.

Lemma mapM_length {X Y} (f : X -> res Y) l ys : mapM f l = Ok ys -> length ys = length l.
Proof.
  revert ys; induction l as [|x xs IH]; simpl; intros ys H.
  - injection H as <-; reflexivity.
  - destruct (f x); simpl in H; [|discriminate].
    destruct (mapM f xs); simpl in H; [|discriminate].
    injection H as <-. simpl. f_equal. apply IH. reflexivity.
Qed.

Lemma mapM_nth {X Y} (f : X -> res Y) l ys i x :
  mapM f l = Ok ys -> nth_error l i = Some x ->
  exists y, nth_error ys i = Some y /\ f x = Ok y.
Proof.
  revert ys i; induction l as [|x0 xs IH]; simpl; intros ys i H Hi.
  - destruct i; discriminate.
  - destruct (f x0) eqn:Hf; simpl in H; [|discriminate].
    destruct (mapM f xs) eqn:Hm; simpl in H; [|discriminate].
    injection H as <-. destruct i; simpl in *.
    + injection Hi as <-. eauto.
    + eapply IH; eauto.
Qed.

Lemma mapM_map {X Y} (f : X -> res Y) (g : X -> Y) l :
  (forall x, In x l -> f x = Ok (g x)) -> mapM f l = Ok (map g l).
Proof.
  induction l as [|x xs IH]; simpl; intros H; [reflexivity|].
  rewrite H by auto. simpl. rewrite IH by auto. reflexivity.
Qed.

Lemma select_length_le {X} m (l : list X) : length (select m l) <= length l.
Proof. revert l; induction m as [|b bs IH]; destruct l as [|x xs]; simpl; try lia.
  specialize (IH xs). destruct b; simpl; lia. Qed.

Lemma modify_length {X} i f (l : list X) : length (modify i f l) = length l.
Proof. revert i; induction l as [|x xs IH]; destruct i; simpl; auto. Qed.

Lemma nth_error_modify {X} i f (l : list X) j :
  nth_error (modify i f l) j =
  if Nat.eqb i j then option_map f (nth_error l j) else nth_error l j.
Proof.
  revert i j; induction l as [|x xs IH]; intros i j; simpl.
  - destruct (Nat.eqb i j), i, j; reflexivity.
  - destruct i, j; simpl; auto.
Qed.

Lemma map2_length {X Y Z} (f : X -> Y -> Z) l m :
  length (map2 f l m) = Nat.min (length l) (length m).
Proof. revert m; induction l as [|x xs IH]; destruct m; simpl; auto. Qed.

Lemma nth_error_map2 {X Y Z} (f : X -> Y -> Z) l m i :
  nth_error (map2 f l m) i =
  match nth_error l i, nth_error m i with Some x, Some y => Some (f x y) | _, _ => None end.
Proof.
  revert m i; induction l as [|x xs IH]; intros [|y ys] i; simpl.
  - destruct i; reflexivity.
  - destruct i; reflexivity.
  - destruct i; simpl; [reflexivity|]. destruct (nth_error xs i); reflexivity.
  - destruct i; simpl; [reflexivity|]. apply IH.
Qed.

(** Loop rules. *)
Section Loop.
  Context {S R : Type}.
  Implicit Types (body : S -> step S R) (I : S -> Prop).

  (** Invariant rule. *)
  Lemma loop_inv body I (QR : R -> S -> Prop) (QE : exn -> S -> Prop) :
    (forall s, I s -> match body s with
                      | Continue s' => I s'
                      | Finish r s' => QR r s'
                      | Fail e s' => QE e s' end) ->
    forall fuel s, I s ->
    match loop fuel body s with
    | Returned r s' => QR r s'
    | Raised e s' => QE e s'
    | OutOfFuel s' => I s'
    end.
  Proof.
    intros Hb fuel; induction fuel as [|n IH]; simpl; intros s Hs; [exact Hs|].
    specialize (Hb s Hs). destruct (body s); [apply IH; exact Hb|exact Hb|exact Hb].
  Qed.

  (** Termination rule: a measure that decreases on every continuing iteration. *)
  Lemma loop_terminates body I (mu : S -> nat) :
    (forall s, I s -> match body s with
                      | Continue s' => I s' /\ mu s' < mu s
                      | _ => True end) ->
    forall fuel s, I s -> mu s < fuel ->
    match loop fuel body s with OutOfFuel _ => False | _ => True end.
  Proof.
    intros Hb fuel; induction fuel as [|n IH]; simpl; intros s Hs Hm; [lia|].
    specialize (Hb s Hs). destruct (body s); auto.
    destruct Hb. apply IH; [assumption|lia].
  Qed.

  (** More fuel never changes a finished run. *)
  Lemma loop_more_fuel body fuel fuel' s :
    fuel <= fuel' ->
    (match loop fuel body s with OutOfFuel _ => False | _ => True end) ->
    loop fuel' body s = loop fuel body s.
  Proof.
    revert fuel' s; induction fuel as [|n IH]; simpl; intros fuel' s Hle H; [tauto|].
    destruct fuel' as [|n']; [lia|]. simpl.
    destruct (body s); auto. apply IH; [lia|assumption].
  Qed.
End Loop.
