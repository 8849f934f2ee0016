(** * Neutrality errors: norms do not depend on the listing of the edges *)
From Coq Require Import ZArith Bool List Lia Arith Reals Lra Permutation.
From Verif Require Import Num XR XRlemmas Res Arr ArrLemmas NdLemmas M_graph M_lib M_ntp S_graph S_lib S_ntp P_div P_ntp.
Import ListNotations.
Local Open Scope R_scope.

Section Reversal.
  Variable eos_s_t : xr -> xr -> xr -> res (xr * xr).
  Variable stp : list bottle.
  Notation edge := (fun e => let! x := get stp (fst e) in let! y := get stp (snd e) in epsilon_1 eos_s_t x y).

  Lemma edge_swap (a : nat * nat) : edge (swap a) = neg_res xr_opp (edge a).
  Proof.
    destruct a as [a b]. unfold swap. cbn [fst snd]. unfold get.
    destruct (nth_error stp a) as [x|], (nth_error stp b) as [y|]; cbn [bind neg_res]; try reflexivity. apply epsilon_1_swap.
  Qed.

  Lemma error1_reversed edges edges' : Forall2 (fun e e' => e' = e \/ e' = swap e) edges edges' ->
    match ntp_epsilon_error1 eos_s_t stp edges, ntp_epsilon_error1 eos_s_t stp edges' with
    | Ok e, Ok e' => Forall2 (fun x x' => x' = x \/ x' = xr_opp x) e e'
    | Err u, Err v => u = v
    | _, _ => False
    end.
  Proof.
    unfold ntp_epsilon_error1. induction 1 as [|a a' l l' Ha _ IH]; cbn [mapM]; [constructor|].
    assert (E : edge a' = edge a \/ edge a' = neg_res xr_opp (edge a)) by (destruct Ha as [->| ->]; [left; reflexivity|right; apply edge_swap]).
    cbv beta in E. destruct (let! x := get stp (fst a) in _) as [v|u]; cbn [bind neg_res] in *.
    - destruct E as [E|E]; rewrite E; cbn [bind]; destruct (mapM _ l), (mapM _ l'); cbn [bind]; try contradiction; try assumption;
        constructor; auto.
    - destruct E as [E|E]; rewrite E; reflexivity.
  Qed.

  Lemma np_bin_length_r (f : xr -> xr -> xr) x y y' : y = y' -> np_bin f x y = np_bin f x y'.
  Proof. intros ->. reflexivity. Qed.

  Lemma map_reversed {B} (h : xr -> B) e e' : (forall x, h (xr_opp x) = h x) -> Forall2 (fun x x' => x' = x \/ x' = xr_opp x) e e' ->
    map h e = map h e'.
  Proof. intros Hh. induction 1 as [|x x' l l' Hx _ IH]; simpl; [reflexivity|]. rewrite IH. f_equal. destruct Hx as [->| ->]; [reflexivity|symmetry; apply Hh]. Qed.

  Lemma norms_reversed edges edges' dist perp : Forall2 (fun e e' => e' = e \/ e' = swap e) edges edges' ->
    ntp_epsilon_errors_norms eos_s_t stp (GDict (Some edges') dist perp)
    = ntp_epsilon_errors_norms eos_s_t stp (GDict (Some edges) dist perp).
  Proof.
    intros H. unfold ntp_epsilon_errors_norms, ntp_epsilon_errors_norms_by. cbn [key bind]. rewrite !errors_dict. pose proof (error1_reversed _ _ H) as R.
    destruct (ntp_epsilon_error1 eos_s_t stp edges) as [e|u], (ntp_epsilon_error1 eos_s_t stp edges') as [e'|v]; try contradiction;
      cbn [bind]; [|congruence].
    rewrite <- (map_reversed finite01 e e'), <- (map_reversed (fun x : xr => mul x x) e e'), <- (map_reversed fabs e e'); trivial.
    - intros [r| | |]; simpl; try reflexivity. f_equal. apply Rabs_Ropp.
    - intros [r| | |]; simpl; try reflexivity. f_equal. ring.
    - intros [r| | |]; reflexivity.
  Qed.
End Reversal.

Section Permute.
  Variable eos_s_t : xr -> xr -> xr -> res (xr * xr).
  Variable stp : list bottle.
  Notation edge := (fun e => let! x := get stp (fst e) in let! y := get stp (snd e) in epsilon_1 eos_s_t x y).

  Lemma add_right_comm a x y : xr_add (xr_add a x) y = xr_add (xr_add a y) x.
  Proof. destruct a, x, y; simpl; try reflexivity. f_equal. ring. Qed.

  Lemma fsum_perm (l l' : list xr) : Permutation l l' -> fsum l = fsum l'.
  Proof.
    unfold fsum. cbn [add xrNum]. generalize (@zero xr xrNum). intros a H. revert a.
    induction H as [|x l l' _ IH|x y l|l l' l'' _ IH1 _ IH2]; intros a; simpl; [reflexivity|apply IH| |].
    - rewrite add_right_comm. reflexivity.
    - rewrite IH1. apply IH2.
  Qed.

  (** edges with their distances *)
  Notation item := ((nat * nat) * (xr * xr))%type.
  Definition err_of (x : item) : xr := match edge (fst x) with Ok v => v | Err _ => NaN end.

  Lemma error1_items (L : list item) e : ntp_epsilon_error1 eos_s_t stp (map fst L) = Ok e ->
    e = map err_of L /\ Forall (fun x => exists v, edge (fst x) = Ok v) L.
  Proof.
    unfold ntp_epsilon_error1. revert e. induction L as [|x L IH]; intros e E; cbn [map mapM] in E; [injection E as <-; split; constructor|].
    cbv beta in E. destruct (let! u := get stp (fst (fst x)) in _) as [v|] eqn:Ev; [|discriminate]. cbn [bind] in E.
    destruct (mapM _ (map fst L)) as [es|]; [|discriminate]. cbn [bind] in E. injection E as <-.
    destruct (IH es eq_refl) as [-> IHf]. split; [|constructor; [exists v; exact Ev|assumption]].
    cbn [map]. f_equal. unfold err_of. cbv beta. rewrite Ev. reflexivity.
  Qed.
  Lemma error1_items_ok (L : list item) : Forall (fun x => exists v, edge (fst x) = Ok v) L ->
    ntp_epsilon_error1 eos_s_t stp (map fst L) = Ok (map err_of L).
  Proof.
    unfold ntp_epsilon_error1. induction 1 as [|x L [v Ev] _ IH]; cbn [map mapM]; [reflexivity|]. cbv beta in *.
    rewrite Ev. cbn [bind]. rewrite IH. cbn [bind]. unfold err_of at 2. cbv beta. rewrite Ev. reflexivity.
  Qed.

  Lemma np_bin_map {B} (f : xr -> xr -> xr) (h k : B -> xr) (L : list B) : np_bin f (map h L) (map k L) = Ok (map (fun x => f (h x) (k x)) L).
  Proof.
    rewrite np_bin_eq by (rewrite !map_length; reflexivity). f_equal. unfold map2. induction L; simpl; congruence.
  Qed.

  Lemma norms_items L : Forall (fun x => exists v, edge (fst x) = Ok v) L ->
    ntp_epsilon_errors_norms eos_s_t stp (grid_of L) =
      let denom := fsum (map (fun x => mul (mul (fst (snd x)) (snd (snd x))) (finite01 (err_of x))) L) in
      if eqb denom (lit 0 0) then Ok (lit 0 0, lit 0 0)
      else Ok (fsqrt (div (nansum (map (fun x => mul (div (snd (snd x)) (fst (snd x))) (mul (err_of x) (err_of x))) L)) denom),
               div (nansum (map (fun x => mul (snd (snd x)) (fabs (err_of x))) L)) denom).
  Proof.
    intros H. unfold ntp_epsilon_errors_norms, ntp_epsilon_errors_norms_by, grid_of. cbn [key bind]. rewrite errors_dict, (error1_items_ok _ H). cbn [bind].
    unfold gmul, gdiv. cbn [garr]. rewrite np_bin_map. cbn [bind garr]. rewrite !map_map, np_bin_map. cbn [bind].
    destruct (eqb _ _); [reflexivity|]. rewrite np_bin_map. cbn [bind garr]. rewrite !np_bin_map. cbn [bind]. reflexivity.
  Qed.

  Lemma norms_permuted L L' r : Permutation L L' ->
    ntp_epsilon_errors_norms eos_s_t stp (grid_of L) = Ok r ->
    ntp_epsilon_errors_norms eos_s_t stp (grid_of L') = Ok r.
  Proof.
    intros HP E. assert (HF : Forall (fun x => exists v, edge (fst x) = Ok v) L).
    { unfold ntp_epsilon_errors_norms, ntp_epsilon_errors_norms_by, grid_of in E. cbn [key bind] in E. rewrite errors_dict in E.
      destruct (ntp_epsilon_error1 eos_s_t stp (map fst L)) as [e|] eqn:Ee; [|discriminate]. apply (error1_items _ _ Ee). }
    assert (HF' : Forall (fun x => exists v, edge (fst x) = Ok v) L') by (eapply Permutation_Forall; eassumption).
    rewrite norms_items in * by assumption. cbv zeta in *. unfold nansum, nansum_by in *. rewrite !map_map in *.
    rewrite <- !(fsum_perm _ _ (Permutation_map _ HP)). exact E.
  Qed.
End Permute.
