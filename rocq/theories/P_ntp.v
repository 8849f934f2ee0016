(** * Neutrality errors: proofs *)
From Coq Require Import ZArith Bool List Lia Arith Reals Lra Permutation.
From Verif Require Import Num XR XRlemmas Res Arr ArrLemmas NdLemmas M_graph M_lib M_ntp S_graph S_lib S_ntp P_div P_domain.
Import ListNotations.
Local Open Scope R_scope.

(** ** one edge *)
Section One.
  Variable eos_s_t : xr -> xr -> xr -> res (xr * xr).

  Lemma epsilon_1_real D rs rt x y a b : eos_s_t_on D eos_s_t rs rt -> finite_bottle x a -> finite_bottle y b ->
    water_in D a -> water_in D b ->
    epsilon_1 eos_s_t x y = Ok (Fin (water_error rs rt a b)).
  Proof.
    intros He Hx Hy Da Db. destruct a as [[sa ta] pa], b as [[sb tb] pb]. simpl in Hx, Hy. subst.
    destruct Da as (A1 & A2 & A3), Db as (B1 & B2 & B3).
    unfold epsilon_1, water_error. xsimp.
    replace (/ 2 * (sa + sb)) with ((sa + sb) / 2) by field. replace (/ 2 * (ta + tb)) with ((ta + tb) / 2) by field.
    replace (/ 2 * (pa + pb)) with ((pa + pb) / 2) by field.
    rewrite He by (apply interval_mid; auto using dS_interval, dT_interval, dP_interval). xsimp. reflexivity.
  Qed.

  Lemma mul_nan_r u : xr_mul u NaN = NaN.
  Proof. destruct u; reflexivity. Qed.
  Lemma add_nan_r u : xr_add u NaN = NaN.
  Proof. destruct u; reflexivity. Qed.
  Lemma add_nan_l u : xr_add NaN u = NaN.
  Proof. destruct u; reflexivity. Qed.
  Lemma sub_nan_r u : xr_sub u NaN = NaN.
  Proof. destruct u; reflexivity. Qed.
  Lemma sub_nan_l u : xr_sub NaN u = NaN.
  Proof. destruct u; reflexivity. Qed.

  Lemma epsilon_1_missing x y : nan_safe eos_s_t -> missing x \/ missing y -> exists r, epsilon_1 eos_s_t x y = Ok r.
  Proof.
    intros Ht H. destruct x as [[sa ta] pa], y as [[sb tb] pb]. unfold epsilon_1.
    match goal with |- exists _, bind (eos_s_t ?a ?b ?c) _ = _ => destruct (Ht a b c) as [[rs rt] E] end.
    { cbn [missing] in *. cbn [add mul xrNum]. destruct H as [[->|[->| ->]]|[->|[->| ->]]];
        rewrite ?add_nan_l, ?add_nan_r, ?mul_nan_r; auto. }
    rewrite E. cbn [bind]. eexists. reflexivity.
  Qed.

  Lemma epsilon_1_dry x y : nan_safe eos_s_t -> dry x \/ dry y ->
    epsilon_1 eos_s_t x y = Ok NaN.
  Proof.
    intros Ht H. destruct x as [[sa ta] pa], y as [[sb tb] pb]. unfold epsilon_1.
    match goal with |- bind (eos_s_t ?a ?b ?c) _ = _ => destruct (Ht a b c) as [[rs rt] E] end.
    { unfold dry in H; cbn [missing fst snd] in *. cbn [add mul xrNum]. destruct H as [[->| ->]|[->| ->]];
        rewrite ?add_nan_l, ?add_nan_r, ?mul_nan_r; auto. }
    rewrite E. cbn [bind].
    f_equal. cbn [add sub mul xrNum]. unfold dry in H; simpl in H.
    destruct H as [[->| ->]|[->| ->]]; rewrite ?sub_nan_l, ?sub_nan_r, ?mul_nan_r, ?add_nan_l, ?add_nan_r; reflexivity.
  Qed.

  Lemma opp_sub u v : xr_opp (xr_sub u v) = xr_sub v u.
  Proof. destruct u, v; simpl; try reflexivity. f_equal. ring. Qed.
  Lemma sgn_opp r : Rsgn_inf (- r) = xr_opp (Rsgn_inf r).
  Proof. unfold Rsgn_inf. repeat destruct Rlt_dec; simpl; try reflexivity; lra. Qed.
  Lemma opp_mul u v : xr_opp (xr_mul u v) = xr_mul u (xr_opp v).
  Proof.
    destruct u, v; simpl; try reflexivity; rewrite ?sgn_opp, ?Ropp_involutive; try reflexivity;
      try (f_equal; ring); destruct (Rsgn_inf r); simpl; try reflexivity; f_equal; ring.
  Qed.
  Lemma opp_add u v : xr_opp (xr_add u v) = xr_add (xr_opp u) (xr_opp v).
  Proof. destruct u, v; simpl; try reflexivity. f_equal. ring. Qed.
  Lemma add_comm_xr u v : xr_add u v = xr_add v u.
  Proof. destruct u, v; simpl; try reflexivity. f_equal. ring. Qed.

  Definition neg_res {A} (f : A -> A) (r : res A) : res A := match r with Ok x => Ok (f x) | Err e => Err e end.

  Lemma epsilon_1_swap x y : epsilon_1 eos_s_t y x = neg_res xr_opp (epsilon_1 eos_s_t x y).
  Proof.
    destruct x as [[sa ta] pa], y as [[sb tb] pb]. unfold epsilon_1. cbn [add sub mul xrNum].
    rewrite (add_comm_xr sb sa), (add_comm_xr tb ta), (add_comm_xr pb pa).
    destruct (eos_s_t _ _ _) as [[rs rt]|]; cbn [bind neg_res]; [|reflexivity].
    rewrite opp_add, !opp_mul, !opp_sub. reflexivity.
  Qed.
End One.

(** ** elementwise arithmetic *)
Definition map2 {A B C} (f : A -> B -> C) (l : list A) (l' : list B) : list C :=
  map (fun p => f (fst p) (snd p)) (combine l l').

Lemma map2_length {A B C} (f : A -> B -> C) l l' : length l = length l' -> length (map2 f l l') = length l.
Proof. intros H. unfold map2. rewrite map_length, combine_length. lia. Qed.

Lemma np_bin_eq {F} {Nm : Num F} f (x y : list F) : length x = length y -> np_bin f x y = Ok (map2 f x y).
Proof. intros H. unfold np_bin. rewrite H, Nat.eqb_refl. reflexivity. Qed.

Lemma np_bin_scalar_l {F} {Nm : Num F} f (y : list F) c : np_bin f [c] y = np_bin f (repeat c (length y)) y.
Proof.
  unfold np_bin. rewrite repeat_length, Nat.eqb_refl. destruct y as [|u [|v y]].
  - reflexivity.
  - reflexivity.
  - simpl. f_equal. f_equal. f_equal. clear. induction y as [|z y IH]; simpl; [reflexivity|]. f_equal. assumption.
Qed.

Lemma map_repeat {A B} (f : A -> B) c n : map f (repeat c n) = repeat (f c) n.
Proof. induction n; simpl; congruence. Qed.

(** the operand of an elementwise operation *)
Lemma np_bin_distances (f : xr -> xr -> xr) g n l y : distances g n l -> length y = n ->
  np_bin f (garr g) y = Ok (map2 f (map Fin l) y).
Proof.
  intros [Hl [->|(c & -> & ->)]] Hy; simpl.
  - apply np_bin_eq. rewrite map_length. lia.
  - rewrite np_bin_scalar_l, Hy, map_repeat. apply np_bin_eq. rewrite repeat_length. lia.
Qed.
Lemma np_bin_distances_r (f : xr -> xr -> xr) g n l y : distances g n l -> length y = n ->
  np_bin f y (garr g) = Ok (map2 f y (map Fin l)).
Proof.
  intros [Hl [->|(c & -> & ->)]] Hy; simpl.
  - apply np_bin_eq. rewrite map_length. lia.
  - rewrite np_bin_scalar, Hy, map_repeat. apply np_bin_eq. rewrite repeat_length. lia.
Qed.

Lemma map2_fin (f : xr -> xr -> xr) (h : R -> R -> R) : forall l l', (forall x y, In y l' -> f (Fin x) (Fin y) = Fin (h x y)) ->
  map2 f (map Fin l) (map Fin l') = map Fin (map2 h l l').
Proof.
  induction l as [|x l IH]; intros [|y l'] H; try reflexivity. unfold map2 in *. simpl. rewrite H by (left; reflexivity).
  f_equal. apply IH. intros. apply H. right. assumption.
Qed.
Lemma map2_repeat (h : R -> R -> R) a b n : map2 h (repeat a n) (repeat b n) = repeat (h a b) n.
Proof. unfold map2. induction n; simpl; congruence. Qed.

Lemma gmul_distances g g' n l l' : distances g n l -> distances g' n l' ->
  exists h, gmul g g' = Ok h /\ distances h n (map2 Rmult l l').
Proof.
  intros Hg Hg'. assert (Hl : length l = length l') by (destruct Hg, Hg'; lia).
  assert (Hn : length l = n) by apply Hg.
  destruct g as [c|d], g' as [c'|d'].
  - destruct Hg as [_ [|(a & E & ->)]]; [discriminate|]. destruct Hg' as [_ [|(a' & E' & ->)]]; [discriminate|].
    injection E as ->. injection E' as ->. eexists. split; [reflexivity|]. split; [rewrite map2_length; rewrite !repeat_length; reflexivity|].
    right. exists (a * a'). split; [reflexivity|]. apply map2_repeat.
  - assert (E : np_bin mul (garr (Sc c)) d' = Ok (map Fin (map2 Rmult l l'))).
    { destruct (proj2 Hg') as [E|(? & ? & _)]; [|discriminate]. injection E as ->.
      rewrite (np_bin_distances _ _ n l) by (trivial; rewrite map_length; lia). f_equal. apply map2_fin. reflexivity. }
    unfold gmul. simpl garr in *. rewrite E. eexists. split; [reflexivity|]. split; [rewrite map2_length; lia|left; reflexivity].
  - assert (E : np_bin mul d (garr (Sc c')) = Ok (map Fin (map2 Rmult l l'))).
    { destruct (proj2 Hg) as [E|(? & ? & _)]; [|discriminate]. injection E as ->.
      rewrite (np_bin_distances_r _ _ n l') by (trivial; rewrite map_length; lia). f_equal. apply map2_fin. reflexivity. }
    unfold gmul. simpl garr in *. rewrite E. eexists. split; [reflexivity|]. split; [rewrite map2_length; lia|left; reflexivity].
  - assert (E : np_bin mul d (garr (Ar d')) = Ok (map Fin (map2 Rmult l l'))).
    { destruct (proj2 Hg) as [E|(? & ? & _)]; [|discriminate]. injection E as ->.
      rewrite (np_bin_distances_r _ _ n l') by (trivial; rewrite map_length; lia). f_equal. apply map2_fin. reflexivity. }
    unfold gmul. simpl garr in *. rewrite E. eexists. split; [reflexivity|]. split; [rewrite map2_length; lia|left; reflexivity].
Qed.

Lemma gdiv_distances g g' n l l' : distances g n l -> distances g' n l' -> n <> 0%nat -> Forall (fun x => x <> 0) l' ->
  exists h, gdiv g g' = Ok h /\ distances h n (map2 Rdiv l l').
Proof.
  intros Hg Hg' Hn0 Hnz. assert (Hl : length l = length l') by (destruct Hg, Hg'; lia).
  assert (Hn : length l = n) by apply Hg.
  assert (Hd : forall x y, In y l' -> xr_div (Fin x) (Fin y) = Fin (x / y)).
  { intros x y Hin. apply xr_div_fin. rewrite Forall_forall in Hnz. apply Hnz. assumption. }
  destruct g as [c|d], g' as [c'|d'].
  - destruct Hg as [_ [|(a & E & ->)]]; [discriminate|]. destruct Hg' as [_ [|(a' & E' & ->)]]; [discriminate|].
    injection E as ->. injection E' as ->. unfold gdiv. rewrite sdiv_fin.
    2:{ rewrite Forall_forall in Hnz. apply Hnz. destruct n; [contradiction|]. left. reflexivity. }
    eexists. split; [reflexivity|]. split; [rewrite map2_length; rewrite !repeat_length; reflexivity|].
    right. exists (a / a'). split; [reflexivity|]. apply map2_repeat.
  - assert (E : np_bin div (garr (Sc c)) d' = Ok (map Fin (map2 Rdiv l l'))).
    { destruct (proj2 Hg') as [E|(? & ? & _)]; [|discriminate]. injection E as ->.
      rewrite (np_bin_distances _ _ n l) by (trivial; rewrite map_length; lia). f_equal. apply map2_fin. assumption. }
    unfold gdiv. simpl garr in *. rewrite E. eexists. split; [reflexivity|]. split; [rewrite map2_length; lia|left; reflexivity].
  - assert (E : np_bin div d (garr (Sc c')) = Ok (map Fin (map2 Rdiv l l'))).
    { destruct (proj2 Hg) as [E|(? & ? & _)]; [|discriminate]. injection E as ->.
      rewrite (np_bin_distances_r _ _ n l') by (trivial; rewrite map_length; lia). f_equal. apply map2_fin. assumption. }
    unfold gdiv. simpl garr in *. rewrite E. eexists. split; [reflexivity|]. split; [rewrite map2_length; lia|left; reflexivity].
  - assert (E : np_bin div d (garr (Ar d')) = Ok (map Fin (map2 Rdiv l l'))).
    { destruct (proj2 Hg) as [E|(? & ? & _)]; [|discriminate]. injection E as ->.
      rewrite (np_bin_distances_r _ _ n l') by (trivial; rewrite map_length; lia). f_equal. apply map2_fin. assumption. }
    unfold gdiv. simpl garr in *. rewrite E. eexists. split; [reflexivity|]. split; [rewrite map2_length; lia|left; reflexivity].
Qed.

(** ** sums *)
Lemma fsum_fin_acc l : forall a, fold_left xr_add (map Fin l) (Fin a) = Fin (a + Rsum l).
Proof.
  induction l as [|x l IH]; intros a; simpl; [f_equal; ring|]. rewrite IH. f_equal. ring.
Qed.
Lemma fsum_fin l : fsum (map Fin l) = Fin (Rsum l).
Proof. unfold fsum, zero. cbn [add lit xrNum]. rewrite Rlit_0, fsum_fin_acc. f_equal. ring. Qed.

(** a sequence of numbers and NaNs with the given real sum *)
Inductive sums_to : list xr -> R -> Prop :=
| st_nil : sums_to [] 0
| st_nan l r : sums_to l r -> sums_to (NaN :: l) r
| st_fin x l r : sums_to l r -> sums_to (Fin x :: l) (x + r).

Lemma nansum_sums l r : sums_to l r -> nansum l = Fin r.
Proof.
  intros H. unfold nansum, nansum_by.
  enough (E : exists m, map (fun x : xr => if isnan x then zero else x) l = map Fin m /\ Rsum m = r).
  { destruct E as (m & -> & <-). apply fsum_fin. }
  induction H as [|l r H (m & E & S)|x l r H (m & E & S)].
  - exists []. split; reflexivity.
  - exists (0 :: m). cbn [map]. rewrite E. unfold zero. cbn [isnan xr_isnan lit xrNum]. rewrite Rlit_0.
    split; [reflexivity|simpl; rewrite S; ring].
  - exists (x :: m). cbn [map]. rewrite E. split; [reflexivity|simpl; rewrite S; reflexivity].
Qed.

  Lemma denom_samples : forall (e : list xr) (d w : list R), length d = length e -> length w = length e -> Forall number_or_nan e ->
    fsum (map2 xr_mul (map Fin (map2 Rmult d w)) (map finite01 e)) = Fin (total (samples e d w)).
  Proof.
    intros e0 d0 w0 Hd Hw Hf.
    enough (E : exists m, map2 xr_mul (map Fin (map2 Rmult d0 w0)) (map finite01 e0) = map Fin m /\ Rsum m = total (samples e0 d0 w0)).
    { destruct E as (m & -> & <-). apply fsum_fin. }
    revert d0 w0 Hd Hw. induction Hf as [|x e0 Hx Hf IH]; intros [|d0 ds] [|w0 ws] Hd Hw; try discriminate.
    - exists []. split; reflexivity.
    - destruct (IH ds ws) as (m & E & S); [simpl in *; lia..|]. unfold map2 in *. simpl. rewrite E.
      destruct Hx as [->|[r ->]]; simpl.
      + unfold finite01, zero. simpl. rewrite Rlit_0. exists (d0 * w0 * 0 :: m). split; [reflexivity|]. simpl. rewrite S. ring.
      + unfold finite01, one. simpl. rewrite Rlit_0. exists (d0 * w0 * 1 :: m). split; [reflexivity|]. simpl. rewrite S.
        unfold total. simpl. unfold total. ring.
  Qed.

  Lemma squares_samples : forall (e : list xr) (d w : list R), length d = length e -> length w = length e -> Forall number_or_nan e ->
    Forall (fun x => x <> 0) d ->
    sums_to (map2 xr_mul (map Fin (map2 Rdiv w d)) (map (fun x => xr_mul x x) e))
            (Rsum (map (fun s => fst s * (snd s * snd s)) (samples e d w))).
  Proof.
    intros e0 d0 w0 Hd Hw Hf. revert d0 w0 Hd Hw.
    induction Hf as [|x e0 Hx Hf IH]; intros [|d0 ds] [|w0 ws] Hd Hw Hz; try discriminate; [constructor|].
    inversion Hz; subst. specialize (IH ds ws). unfold map2 in *. simpl.
    destruct Hx as [->|[r ->]]; simpl.
    - constructor. apply IH; simpl in *; trivial; lia.
    - replace (d0 * w0 * (r / d0 * (r / d0))) with (w0 / d0 * (r * r)) by (field; assumption).
      constructor. apply IH; simpl in *; trivial; lia.
  Qed.

  Lemma abs_samples : forall (e : list xr) (d w : list R), length d = length e -> length w = length e -> Forall number_or_nan e ->
    Forall (fun x => 0 < x) d ->
    sums_to (map2 xr_mul (map Fin w) (map xr_abs e))
            (Rsum (map (fun s => fst s * Rabs (snd s)) (samples e d w))).
  Proof.
    intros e0 d0 w0 Hd Hw Hf. revert d0 w0 Hd Hw.
    induction Hf as [|x e0 Hx Hf IH]; intros [|d0 ds] [|w0 ws] Hd Hw Hz; try discriminate; [constructor|].
    inversion Hz; subst. specialize (IH ds ws). unfold map2 in *. simpl.
    destruct Hx as [->|[r ->]]; simpl.
    - constructor. apply IH; simpl in *; trivial; lia.
    - replace (d0 * w0 * Rabs (r / d0)) with (w0 * Rabs r).
      { constructor. apply IH; simpl in *; trivial; lia. }
      unfold Rdiv. rewrite Rabs_mult, (Rabs_right (/ d0)) by (left; apply Rinv_0_lt_compat; assumption). field. lra.
  Qed.

Lemma total_nonneg e d w : Forall (fun x => 0 < x) d -> Forall (fun x => 0 <= x) w -> Forall (fun s => 0 <= fst s) (samples e d w).
Proof.
  intros Hd. revert e w. induction Hd as [|x d Hx Hd IH]; intros [|[r| | |] e] w Hw; simpl; try constructor;
    inversion Hw as [|? ? Hw1 Hw2]; subst; try (constructor; simpl); try apply IH; trivial. apply Rmult_le_pos; lra.
Qed.

Lemma Rsum_nonneg l : Forall (fun x => 0 <= x) l -> 0 <= Rsum l.
Proof. induction 1; simpl; lra. Qed.

(** ** the errors *)
Section Errors.
  Variable eos_s_t : xr -> xr -> xr -> res (xr * xr).

  Lemma div_one (x : xr) : div x (one : xr) = x.
  Proof.
    unfold one. cbn [div lit xrNum]. rewrite Rlit_0. destruct x; simpl; try reflexivity.
    - destruct Req_EM_T; [lra|]. f_equal. field.
    - destruct Rlt_dec; [lra|reflexivity].
    - destruct Rlt_dec; [lra|reflexivity].
  Qed.

  Lemma errors_unit stp edges : ntp_epsilon_errors eos_s_t stp (GTuple edges) = ntp_epsilon_error1 eos_s_t stp edges.
  Proof.
    unfold ntp_epsilon_errors. cbn [bind]. destruct (ntp_epsilon_error1 eos_s_t stp edges) as [e|]; cbn [bind]; [|reflexivity].
    simpl garr. rewrite np_bin_scalar, np_bin_eq by (rewrite repeat_length; reflexivity). f_equal.
    unfold map2. clear. induction e as [|x e IH]; cbn [length repeat combine map fst snd]; [reflexivity|]. rewrite div_one. f_equal. assumption.
  Qed.

  (** all forms of the argument without distances agree *)
  Lemma errors_dict stp edges w : ntp_epsilon_errors eos_s_t stp (GDict (Some edges) None w) = ntp_epsilon_error1 eos_s_t stp edges.
  Proof. rewrite <- errors_unit. reflexivity. Qed.

  Lemma errors_total D rs rt stp edges n : in_range edges n -> length stp = n -> eos_s_t_on D eos_s_t rs rt -> nan_safe eos_s_t ->
    (forall x, In x stp -> bottle_in D x \/ missing x) ->
    exists e, ntp_epsilon_error1 eos_s_t stp edges = Ok e /\ length e = length edges
      /\ forall i a b x y, nth_error edges i = Some (a, b) -> nth_error stp a = Some x -> nth_error stp b = Some y ->
           exists v, nth_error e i = Some v /\ epsilon_1 eos_s_t x y = Ok v.
  Proof.
    intros Hr Hn He Ht Hx. destruct (mapM_ok (fun e => let! x := get stp (fst e) in let! y := get stp (snd e) in epsilon_1 eos_s_t x y) edges)
      as (e & E & L & H).
    - intros [a b] Hin. apply Hr in Hin. destruct (get_lt stp a) as (x & Ex & Nx); [lia|]. destruct (get_lt stp b) as (y & Ey & Ny); [lia|].
      cbn [fst snd]. rewrite Ex. cbn [bind]. rewrite Ey. cbn [bind]. apply nth_error_In in Nx, Ny.
      destruct (Hx _ Nx) as [(s1 & t1 & p1 & -> & A)|M]; [|apply epsilon_1_missing; auto].
      destruct (Hx _ Ny) as [(s2 & t2 & p2 & -> & B)|M]; [|apply epsilon_1_missing; auto].
      eexists. apply (epsilon_1_real eos_s_t D rs rt _ _ (s1, t1, p1) (s2, t2, p2)); auto; reflexivity.
    - exists e. split; [exact E|]. split; [assumption|]. clear Hx. intros i a b x y Hi Hx Hy. destruct (H _ _ Hi) as (v & Hv & Ev).
      exists v. split; [assumption|]. cbn [fst snd] in Ev. rewrite (get_ok _ _ _ Hx) in Ev. cbn [bind] in Ev.
      rewrite (get_ok _ _ _ Hy) in Ev. exact Ev.
  Qed.

  Lemma errors_correct D rs rt stp edges n dist l w : eos_s_t_on D eos_s_t rs rt -> nan_safe eos_s_t ->
    (forall x, In x stp -> bottle_in D x \/ missing x) ->
    length stp = n -> in_range edges n ->
    match dist with Some g => distances g (length edges) l /\ Forall (fun x => x <> 0) l | None => l = repeat 1 (length edges) end ->
    exists e, ntp_epsilon_errors eos_s_t stp (GDict (Some edges) dist w) = Ok e /\ length e = length edges
      /\ forall i a b x y d, nth_error edges i = Some (a, b) -> nth_error stp a = Some x -> nth_error stp b = Some y ->
           nth_error l i = Some d ->
           (forall wa wb, finite_bottle x wa -> finite_bottle y wb -> nth_error e i = Some (Fin (water_error rs rt wa wb / d)))
           /\ (dry x \/ dry y -> nth_error e i = Some NaN).
  Proof.
    intros He Ht Hin Hn Hr Hd. destruct (errors_total D rs rt stp edges n) as (e & E & L & H); trivial.
    assert (Hl : exists g, distances g (length edges) l /\ Forall (fun x => x <> 0) l
              /\ ntp_epsilon_errors eos_s_t stp (GDict (Some edges) dist w) = np_bin div e (garr g)).
    { destruct dist as [g|].
      - exists g. split; [apply Hd|]. split; [apply Hd|]. unfold ntp_epsilon_errors. cbn [bind key]. rewrite E. reflexivity.
      - exists (Sc (Fin 1)). subst l. split; [split; [apply repeat_length|]; right; exists 1; split; reflexivity|].
        split; [apply Forall_forall; intros x Hx; apply repeat_spec in Hx; lra|].
        unfold ntp_epsilon_errors. cbn [bind key]. rewrite E. cbn [bind]. unfold one. simpl garr. rewrite Rlit_0. reflexivity. }
    destruct Hl as (g & Hg & Hz & ->). rewrite (np_bin_distances_r _ _ _ l e Hg) by lia.
    assert (Hll : length l = length edges) by apply Hg.
    eexists. split; [reflexivity|]. split; [rewrite map2_length; rewrite ?map_length; lia|].
    intros i a b x y d Hi Hx Hy Hdi. destruct (H _ _ _ _ _ Hi Hx Hy) as (v & Hv & Ev).
    assert (Hm : nth_error (map2 div e (map Fin l)) i = Some (xr_div v (Fin d))).
    { unfold map2. rewrite nth_error_map, nth_error_combine, Hv, nth_error_map, Hdi. reflexivity. }
    rewrite Hm. assert (d <> 0) by (rewrite Forall_forall in Hz; apply Hz; eapply nth_error_In; eassumption).
    split.
    - assert (Hw : forall x a, In x stp -> finite_bottle x a -> water_in D a).
      { intros x0 [[s0 t0] p0] Hx0 E0. cbn in E0. subst x0. destruct (Hin _ Hx0) as [(s1 & t1 & p1 & E1 & W)|M].
        - injection E1 as -> -> ->. exact W.
        - cbn in M. destruct M as [M|[M|M]]; discriminate. }
      intros wa wb Ha Hb. rewrite (epsilon_1_real _ _ _ _ _ _ _ _ He Ha Hb) in Ev by (first [apply (Hw x wa (nth_error_In _ _ Hx) Ha)|apply (Hw y wb (nth_error_In _ _ Hy) Hb)]). injection Ev as <-. rewrite xr_div_fin by assumption. reflexivity.
    - intros Hdry. rewrite (epsilon_1_dry _ _ _ Ht Hdry) in Ev. injection Ev as <-. reflexivity.
  Qed.

  (** reversal, whenever the errors can be computed *)
  Lemma mapM_map_res {A B C} (f : A -> res B) (g : C -> res B) (h : A -> C) (k : B -> B) : (forall a b, f a = Ok b -> g (h a) = Ok (k b)) ->
    forall l ys, mapM f l = Ok ys -> mapM g (map h l) = Ok (map k ys).
  Proof.
    intros H. induction l as [|x l IH]; intros ys E; simpl in *; [injection E as <-; reflexivity|].
    destruct (f x) as [y|] eqn:Ef; [|discriminate]. cbn [bind] in E. destruct (mapM f l) as [zs|] eqn:Em; [|discriminate].
    cbn [bind] in E. injection E as <-. rewrite (H _ _ Ef). cbn [bind]. rewrite (IH _ eq_refl). reflexivity.
  Qed.

  Lemma epsilon_edge_swap stp a v :
    (let! x := get stp (fst a) in let! y := get stp (snd a) in epsilon_1 eos_s_t x y) = Ok v ->
    (let! x := get stp (fst (swap a)) in let! y := get stp (snd (swap a)) in epsilon_1 eos_s_t x y) = Ok (xr_opp v).
  Proof.
    destruct a as [a b]. unfold swap. cbn [fst snd].
    destruct (get stp a) as [x|] eqn:Ex; [|discriminate]. cbn [bind]. destruct (get stp b) as [y|] eqn:Ey; [|discriminate].
    cbn [bind]. intros E. rewrite epsilon_1_swap, E. reflexivity.
  Qed.

  Lemma opp_div x y : xr_div (xr_opp x) y = xr_opp (xr_div x y).
  Proof.
    destruct x, y; simpl; try reflexivity; repeat destruct Req_EM_T; repeat destruct Rlt_dec; simpl; try reflexivity.
    - apply sgn_opp.
    - f_equal. field. assumption.
    - f_equal. ring.
    - f_equal. ring.
  Qed.

  Lemma np_bin_opp e l z : np_bin xr_div e l = Ok z -> np_bin xr_div (map xr_opp e) l = Ok (map xr_opp z).
  Proof.
    assert (M : forall e l, map (fun p => xr_div (fst p) (snd p)) (combine (map xr_opp e) l)
                 = map xr_opp (map (fun p => xr_div (fst p) (snd p)) (combine e l))).
    { clear. induction e as [|x e IH]; intros [|y l]; simpl; try reflexivity. rewrite opp_div, IH. reflexivity. }
    unfold np_bin. rewrite map_length. destruct (Nat.eqb (length e) (length l)).
    - intros E. injection E as <-. f_equal. apply M.
    - destruct e as [|u [|u' e]]; simpl.
      + destruct l as [|v [|v' l]]; try discriminate. intros E. injection E as <-. reflexivity.
      + intros E. injection E as <-. rewrite map_map. f_equal. apply map_ext. intros a. apply opp_div.
      + destruct l as [|v [|v' l]]; try discriminate. intros E. injection E as <-. simpl. rewrite !opp_div, !map_map.
        do 3 f_equal. apply map_ext. intros a. apply opp_div.
  Qed.

  Lemma errors_swap stp edges dist w e : ntp_epsilon_errors eos_s_t stp (GDict (Some edges) dist w) = Ok e ->
    ntp_epsilon_errors eos_s_t stp (GDict (Some (map swap edges)) dist w) = Ok (map xr_opp e).
  Proof.
    unfold ntp_epsilon_errors. cbn [bind key]. intros E. destruct (ntp_epsilon_error1 eos_s_t stp edges) as [e0|] eqn:E0; [|discriminate].
    cbn [bind] in E. unfold ntp_epsilon_error1 in *.
    rewrite (mapM_map_res _ _ _ _ (epsilon_edge_swap stp) _ _ E0). cbn [bind]. apply np_bin_opp. exact E.
  Qed.

  (** ** the norms *)
  Lemma norms_correct stp edges dist perp e d w :
    ntp_epsilon_error1 eos_s_t stp edges = Ok e -> Forall number_or_nan e ->
    distances dist (length edges) d -> distances perp (length edges) w ->
    Forall (fun x => 0 < x) d -> Forall (fun x => 0 <= x) w ->
    ntp_epsilon_errors_norms eos_s_t stp (GDict (Some edges) (Some dist) (Some perp)) =
      Ok (if Req_EM_T (total (samples e d w)) 0 then (Fin 0, Fin 0)
          else (Fin (sqrt (wmean (fun x => x * x) (samples e d w))), Fin (wmean Rabs (samples e d w)))).
  Proof.
    intros E Hf Hd Hw Hd0 Hw0.
    assert (Hle : length e = length edges) by (apply mapM_inv in E; apply E).
    assert (Hld : length d = length edges) by apply Hd. assert (Hlw : length w = length edges) by apply Hw.
    assert (Hz : Forall (fun x => x <> 0) d) by (eapply Forall_impl; [|exact Hd0]; simpl; intros; lra).
    unfold ntp_epsilon_errors_norms, ntp_epsilon_errors_norms_by. change (nansum_by fsum) with (@nansum xr _). cbn [key bind]. rewrite errors_dict, E. cbn [bind].
    destruct (gmul_distances _ _ _ _ _ Hd Hw) as (ga & Ea & Ha). rewrite Ea. cbn [bind].
    rewrite (np_bin_distances _ _ _ _ _ Ha) by (rewrite map_length; lia). cbn [bind].
    change (map2 mul) with (map2 xr_mul). rewrite denom_samples by (trivial; lia). xsimp.
    destruct (Reqb_spec (total (samples e d w)) 0) as [Eq|Ne].
    { destruct Req_EM_T; [reflexivity|contradiction]. }
    destruct Req_EM_T; [contradiction|].
    assert (Hn0 : length edges <> 0%nat).
    { intros H0. rewrite H0 in Hle. destruct e; [|discriminate]. apply Ne. reflexivity. }
    destruct (gdiv_distances _ _ _ _ _ Hw Hd Hn0 Hz) as (gr & Er & Hr). rewrite Er. cbn [bind].
    rewrite (np_bin_distances _ _ _ _ _ Hr) by (rewrite map_length; lia). cbn [bind].
    rewrite (np_bin_distances _ _ _ _ _ Hw) by (rewrite map_length; lia). cbn [bind].
    rewrite (nansum_sums _ _ (squares_samples e d w ltac:(lia) ltac:(lia) Hf Hz)).
    rewrite (nansum_sums _ _ (abs_samples e d w ltac:(lia) ltac:(lia) Hf Hd0)).
    cbn [div xrNum]. rewrite !xr_div_fin by assumption. cbn [fsqrt xrNum xr_sqrt]. fold (wmean (fun x => x * x) (samples e d w)).
    destruct Rlt_dec as [Hneg|]; [|reflexivity]. exfalso.
    assert (Hp := total_nonneg e d w Hd0 Hw0). revert Hneg. apply Rle_not_lt. unfold wmean.
    apply Rmult_le_pos.
    - apply Rsum_nonneg. apply Forall_map. eapply Forall_impl; [|exact Hp]. intros [a x]; simpl; intros. apply Rmult_le_pos; [assumption|apply Rle_0_sqr].
    - left. apply Rinv_0_lt_compat. assert (0 <= total (samples e d w)); [|lra]. apply Rsum_nonneg. apply Forall_map. assumption.
  Qed.
End Errors.

(** ** Cauchy-Schwarz for weighted means *)
Lemma cs_quadratic l : Forall (fun s => 0 <= fst s) l -> forall c : R,
  0 <= Rsum (map (fun s => fst s * (snd s * snd s)) l) - 2 * c * Rsum (map (fun s => fst s * Rabs (snd s)) l) + c * c * total l.
Proof.
  intros H c. unfold total. induction H as [|[a x] l Ha Hl IH]; simpl in *; [lra|].
  replace (x * x) with (Rabs x * Rabs x) by (rewrite <- Rabs_mult; apply Rabs_right; apply Rle_ge, Rle_0_sqr).
  assert (0 <= a * ((Rabs x - c) * (Rabs x - c))) by (apply Rmult_le_pos; [assumption|apply Rle_0_sqr]).
  nra.
Qed.

Lemma mean_le_rms l : Forall (fun s => 0 <= fst s) l -> total l <> 0 ->
  0 <= wmean Rabs l <= sqrt (wmean (fun x => x * x) l).
Proof.
  intros H H0. assert (Hp : 0 < total l).
  { assert (0 <= total l); [|lra]. apply Rsum_nonneg, Forall_map. assumption. }
  assert (Ha : 0 <= wmean Rabs l).
  { unfold wmean. apply Rmult_le_pos; [|left; apply Rinv_0_lt_compat; assumption]. apply Rsum_nonneg, Forall_map.
    eapply Forall_impl; [|exact H]. intros [a x]; simpl; intros. apply Rmult_le_pos; [assumption|apply Rabs_pos]. }
  split; [assumption|]. rewrite <- (sqrt_square _ Ha). apply sqrt_le_1_alt.
  pose proof (cs_quadratic l H (wmean Rabs l)) as Q. unfold wmean in *.
  set (A := Rsum (map (fun s => fst s * Rabs (snd s)) l)) in *. set (B := Rsum (map (fun s => fst s * (snd s * snd s)) l)) in *.
  set (t := total l) in *. apply Rmult_le_reg_r with t; [assumption|].
  replace (B / t * t) with B by (field; lra). replace (A / t * (A / t) * t) with (A * A / t) by (field; lra).
  replace (B - 2 * (A / t) * A + A / t * (A / t) * t) with (B - A * A / t) in Q by (field; lra). lra.
Qed.

Lemma rms_le_bound l M : Forall (fun s => 0 <= fst s) l -> total l <> 0 -> Forall (fun s => Rabs (snd s) <= M) l ->
  sqrt (wmean (fun x => x * x) l) <= M.
Proof.
  intros H H0 HM. assert (Hp : 0 < total l).
  { assert (0 <= total l); [|lra]. apply Rsum_nonneg, Forall_map. assumption. }
  assert (HM0 : 0 <= M).
  { destruct HM as [|[a x] l Hx _]; [exfalso; apply H0; reflexivity|]. simpl in Hx. pose proof (Rabs_pos x). lra. }
  rewrite <- (sqrt_square _ HM0). apply sqrt_le_1_alt. unfold wmean. apply Rmult_le_reg_r with (total l); [assumption|].
  unfold Rdiv. rewrite Rmult_assoc, Rinv_l, Rmult_1_r by lra. unfold total. clear H0 Hp.
  induction H as [|[a x] l Ha Hl IH]; simpl in *; [lra|]. inversion HM; subst. specialize (IH H2). simpl in H1.
  assert (x * x <= M * M).
  { replace (x * x) with (Rabs x * Rabs x) by (rewrite <- Rabs_mult; apply Rabs_right; apply Rle_ge, Rle_0_sqr).
    apply Rmult_le_compat; try apply Rabs_pos; assumption. }
  nra.
Qed.

Lemma same_water rs rt s t p p' : water_error rs rt (s, t, p) (s, t, p') = 0.
Proof. unfold water_error. ring. Qed.

Lemma norms_correct_tuple eos_s_t stp edges dist perp e d w :
  ntp_epsilon_errors eos_s_t stp (GTuple edges) = Ok e -> Forall number_or_nan e ->
  distances dist (length edges) d -> distances perp (length edges) w ->
  Forall (fun x => 0 < x) d -> Forall (fun x => 0 <= x) w ->
  ntp_epsilon_errors_norms eos_s_t stp (GDict (Some edges) (Some dist) (Some perp)) =
    Ok (if Req_EM_T (total (samples e d w)) 0 then (Fin 0, Fin 0)
        else (Fin (sqrt (wmean (fun x => x * x) (samples e d w))), Fin (wmean Rabs (samples e d w)))).
Proof. rewrite errors_unit. apply norms_correct. Qed.

Lemma norm_inequalities e d w M : Forall (fun x => 0 < x) d -> Forall (fun x => 0 <= x) w -> total (samples e d w) <> 0 ->
  Forall (fun s => Rabs (snd s) <= M) (samples e d w) ->
  0 <= wmean Rabs (samples e d w) <= sqrt (wmean (fun x => x * x) (samples e d w))
  /\ sqrt (wmean (fun x => x * x) (samples e d w)) <= M.
Proof.
  intros Hd Hw H0 HM. pose proof (total_nonneg e d w Hd Hw) as Hp. split; [apply mean_le_rms; assumption|apply rms_le_bound; assumption].
Qed.
