(** * Code that only compares numbers behaves on binary64 arrays as on the real numbers they hold *)
From Coq Require Import ZArith Reals List SpecFloat Lia Lra Bool.
From Flocq Require Import Raux.
From Verif Require Import Num XR SF Res Arr ArrLemmas XRlemmas M_numpy M_ppinterp S_float P_float P_fl S_interp S_vert64.
Import ListNotations.
Local Open Scope R_scope.

Ltac no_false H := match type of H with False => elim H | _ => idtac end.

Lemma finite_isfinite (x : f64) : finite64 x -> sf_isfinite x = true.
Proof. intros F. destruct x; [reflexivity|elim F|elim F|reflexivity]. Qed.
Lemma finite_isnan (x : f64) : finite64 x -> sf_isnan x = false.
Proof. intros F. destruct x; [reflexivity|elim F|elim F|reflexivity]. Qed.

Lemma holds_isnan (x : f64) v : holds x v -> isnan x = isnan v.
Proof.
  destruct v; cbn [holds]; intros H; no_false H.
  - destruct H as [F _]. exact (finite_isnan x F).
  - subst x. reflexivity.
Qed.
Lemma holds_isfinite (x : f64) v : holds x v -> isfinite x = isfinite v.
Proof.
  destruct v; cbn [holds]; intros H; no_false H.
  - destruct H as [F _]. exact (finite_isfinite x F).
  - subst x. reflexivity.
Qed.
Lemma Rlt_bool_Rltb a b : Rlt_bool a b = Rltb a b.
Proof. unfold Rltb. destruct (Rlt_dec a b) as [L|L]; [apply Rlt_bool_true|apply Rlt_bool_false]; lra. Qed.
Lemma holds_ltb (x y : f64) v w : holds x v -> holds y w -> ltb x y = ltb v w.
Proof.
  destruct v, w; cbn [holds]; intros H K; no_false H; no_false K.
  - destruct H as [F E]. destruct K as [G E']. change (ltb x y) with (SFltb x y). rewrite ltb_val by assumption.
    rewrite E, E'. apply Rlt_bool_Rltb.
  - subst y. change (ltb x S754_nan) with (SFltb x S754_nan). rewrite ltb_nan. reflexivity.
  - subst x. change (ltb S754_nan y) with (SFltb S754_nan y). rewrite nan_ltb. reflexivity.
  - subst x y. reflexivity.
Qed.

Lemma holds_length X X' : holds_all X X' -> length X = length X'.
Proof. intros H. induction H; cbn [length]; congruence. Qed.

Lemma holds_get X X' i v : holds_all X X' -> nth_error X' i = Some v -> exists x, nth_error X i = Some x /\ holds x v.
Proof.
  intros H. revert i. induction H as [|x w X X' Hx H IH]; intros i E.
  - destruct i; discriminate E.
  - destruct i as [|i]; cbn [nth_error] in *.
    + injection E as <-. exists x. auto.
    + apply IH. exact E.
Qed.
Lemma holds_get' X X' i x : holds_all X X' -> nth_error X i = Some x -> exists v, nth_error X' i = Some v /\ holds x v.
Proof.
  intros H. revert i. induction H as [|y w X X' Hx H IH]; intros i E.
  - destruct i; discriminate E.
  - destruct i as [|i]; cbn [nth_error] in *.
    + injection E as <-. exists w. auto.
    + apply IH. exact E.
Qed.
Lemma holds_none X X' i : holds_all X X' -> nth_error X' i = None -> nth_error X i = None.
Proof. intros H E. apply nth_error_None in E. apply nth_error_None. rewrite (holds_length _ _ H). exact E. Qed.

Lemma holds_nth X X' i : holds_all X X' -> holds (nth i X nan) (nth i X' nan).
Proof.
  intros H. destruct (nth_error X' i) as [v|] eqn:E.
  - destruct (holds_get X X' i v H E) as (x & Ex & Hx). rewrite (nth_error_nth _ _ _ Ex), (nth_error_nth _ _ _ E). exact Hx.
  - pose proof (holds_none X X' i H E) as E'. apply nth_error_None in E. apply nth_error_None in E'.
    rewrite !nth_overflow by assumption. reflexivity.
Qed.

Lemma holds_bsearch X X' (x : f64) v : holds_all X X' -> holds x v ->
  forall fuel lo hi, bsearch fuel X x lo hi = bsearch fuel X' v lo hi.
Proof.
  intros H Hx. induction fuel as [|fuel IH]; intros lo hi; [reflexivity|]. cbn [bsearch].
  destruct (Nat.ltb lo hi); [|reflexivity]. rewrite (holds_ltb _ _ _ _ (holds_nth X X' _ H) Hx).
  destruct (ltb _ _); apply IH.
Qed.
Lemma holds_searchsorted X X' (x : f64) v : holds_all X X' -> holds x v -> searchsorted X x = searchsorted X' v.
Proof. intros H Hx. unfold searchsorted. rewrite (holds_length _ _ H). apply holds_bsearch; assumption. Qed.

(** two readings of an array element *)
Definition rres {A B} (P : A -> B -> Prop) (x : res A) (y : res B) : Prop :=
  match x, y with Ok a, Ok b => P a b | Err e, Err e' => e = e' | _, _ => False end.
Lemma get_res X X' i : holds_all X X' -> rres holds (get X i) (get X' i).
Proof.
  intros H. unfold get. destruct (nth_error X' i) as [v|] eqn:E.
  - destruct (holds_get X X' i v H E) as (x & -> & Hx). exact Hx.
  - rewrite (holds_none X X' i H E). reflexivity.
Qed.

Lemma holds_locate_nonan X X' (x : f64) v : holds_all X X' -> holds x v -> locate_nonan x X = locate_nonan v X'.
Proof.
  intros H Hx. unfold locate_nonan. rewrite (holds_isnan _ _ Hx). destruct (isnan v); [reflexivity|].
  pose proof (get_res X X' 0 H) as G0. destruct (get X 0) as [x0|e0], (get X' 0) as [v0|e0']; cbn [rres] in G0; no_false G0.
  2:{ cbn [bind]. congruence. }
  cbn [bind]. rewrite (holds_ltb _ _ _ _ Hx G0). destruct (ltb v v0); [reflexivity|].
  rewrite (holds_length _ _ H). pose proof (get_res X X' (length X' - 1) H) as G1.
  destruct (get X (length X' - 1)) as [x1|e1], (get X' (length X' - 1)) as [v1|e1']; cbn [rres] in G1; no_false G1.
  2:{ cbn [bind]. congruence. }
  cbn [bind]. rewrite (holds_ltb _ _ _ _ G1 Hx). destruct (ltb v1 v); [reflexivity|].
  rewrite (holds_searchsorted X X' x v H Hx). reflexivity.
Qed.

Lemma first_index_eq l (p q : nat -> res bool) d : (forall i, p i = q i) -> first_index l p d = first_index l q d.
Proof. intros E. induction l as [|i l IH]; [reflexivity|]. cbn [first_index]. rewrite E, IH. reflexivity. Qed.

Lemma holds_valid_range_two X X' Y Y' : holds_all X X' -> holds_all Y Y' -> valid_range_1_two X Y = valid_range_1_two X' Y'.
Proof.
  intros H K. unfold valid_range_1_two. rewrite (holds_length _ _ H).
  rewrite (first_index_eq (seq 0 (length X')) _ (fun i => let! x := get X' i in
                if isfinite x then let! y := get Y' i in Ok (isfinite y) else Ok false)).
  2:{ intros i. pose proof (get_res X X' i H) as G. destruct (get X i) as [x|e], (get X' i) as [v|e']; cbn [rres] in G; no_false G; [|cbn [bind]; congruence].
      cbn [bind]. rewrite (holds_isfinite _ _ G). destruct (isfinite v); [|reflexivity].
      pose proof (get_res Y Y' i K) as L. destruct (get Y i) as [y|e], (get Y' i) as [w|e']; cbn [rres] in L; no_false L; [|cbn [bind]; congruence].
      cbn [bind]. rewrite (holds_isfinite _ _ L). reflexivity. }
  destruct (first_index _ _ _) as [k|e]; [|reflexivity]. cbn [bind].
  rewrite (first_index_eq _ _ (fun i => let! x := get X' i in if isnan x then Ok true else let! y := get Y' i in Ok (isnan y))).
  2:{ intros i. pose proof (get_res X X' i H) as G. destruct (get X i) as [x|e], (get X' i) as [v|e']; cbn [rres] in G; no_false G; [|cbn [bind]; congruence].
      cbn [bind]. rewrite (holds_isnan _ _ G). destruct (isnan v); [reflexivity|].
      pose proof (get_res Y Y' i K) as L. destruct (get Y i) as [y|e], (get Y' i) as [w|e']; cbn [rres] in L; no_false L; [|cbn [bind]; congruence].
      cbn [bind]. rewrite (holds_isnan _ _ L). reflexivity. }
  reflexivity.
Qed.

Lemma Forall2_skipn {A B} (P : A -> B -> Prop) n l l' : Forall2 P l l' -> Forall2 P (skipn n l) (skipn n l').
Proof. intros H. revert n. induction H; intros [|n]; cbn [skipn]; auto. Qed.
Lemma Forall2_firstn {A B} (P : A -> B -> Prop) n l l' : Forall2 P l l' -> Forall2 P (firstn n l) (firstn n l').
Proof. intros H. revert n. induction H; intros [|n]; cbn [firstn]; auto. Qed.
Lemma holds_slice X X' k K : holds_all X X' -> holds_all (slice X k K) (slice X' k K).
Proof. intros H. apply Forall2_firstn, Forall2_skipn, H. Qed.
