(** * The linear problems of omega surfaces in binary64: proofs *)
From Coq Require Import ZArith Reals Bool Lia Lra Psatz SpecFloat List.
From Flocq Require Import Core Plus_error Relative.
From Verif Require Import Num XR SF Res Arr ArrLemmas M_graph M_lib M_ntp M_matsolve S_lib S_float P_float P_fl P_linear64 S_matsolve S_ntp S_ntp64
  S_omega S_system64 P_lib P_div P_ntp P_sum64 P_norms64 P_ntpnorms64 P_matsolve.
Import ListNotations.
Open Scope R_scope.
#[local] Existing Instance P_float.prec_pos.
#[local] Existing Instance P_float.prec_max.

(** ** sums of signed numbers *)
Lemma u_ro_u64 : u_ro radix2 53 = u64.
Proof. unfold u_ro. simpl. unfold u64. lra. Qed.

Lemma add_rel (x y : f64) : finite64 x -> finite64 y -> Rabs (fval x + fval y) <= powerRZ 2 1000 ->
  finite64 (add x y) /\ Rabs (fval (add x y) - (fval x + fval y)) <= u64 * Rabs (fval x + fval y).
Proof.
  intros Fx Fy H.
  assert (G : forall z : f64, finite64 z -> generic_format radix2 (FLT_exp (-1074) 53) (fval z)).
  { intros z Fz. destruct (finite64_B _ Fz) as (bz & <- & Hz & Ez). rewrite <- Ez. apply (BinarySingleNaN.generic_format_B2R 53 1024). }
  assert (B : Rabs (rnd (fval x + fval y)) < bpow radix2 1024) by (apply rnd_small; exact H).
  destruct (add_val x y Fx Fy B) as [F E]. change (sf_add x y) with (add x y) in F, E. split; [exact F|]. rewrite E.
  destruct (FLT_plus_error_N_ex radix2 (-1074) 53 (fun n => negb (Z.even n)) _ _ (G x Fx) (G y Fy)) as (eps & He & Hr).
  assert (Er : rnd (fval x + fval y) = (fval x + fval y) * (1 + eps)) by exact Hr.
  rewrite Er. replace ((fval x + fval y) * (1 + eps) - (fval x + fval y)) with (eps * (fval x + fval y)) by ring.
  rewrite Rabs_mult. apply Rmult_le_compat_r; [apply Rabs_pos|]. rewrite u_ro_u64 in He. eapply Rle_trans; [exact He|].
  assert (0 < u64) by (unfold u64; lra). apply Rmult_le_reg_r with (1 + u64); [lra|]. unfold Rdiv. rewrite Rmult_assoc, Rinv_l by lra. nra.
Qed.

Lemma sub_rel (x y : f64) : finite64 x -> finite64 y -> Rabs (fval x - fval y) <= powerRZ 2 1000 ->
  finite64 (sub x y) /\ Rabs (fval (sub x y) - (fval x - fval y)) <= u64 * Rabs (fval x - fval y).
Proof.
  intros Fx Fy H. destruct (SFopp_exact y Fy) as [Fo Eo].
  assert (B : Rabs (rnd (fval x - fval y)) < bpow radix2 1024) by (apply rnd_small; exact H).
  destruct (sub_val x y Fx Fy B) as [F E]. split; [exact F|]. change (sf_sub x y) with (sub x y) in E. rewrite E.
  assert (S : fval x + fval (SFopp y) = fval x - fval y) by (rewrite Eo; ring).
  destruct (add_rel x (SFopp y) Fx Fo) as [_ R]; [rewrite S; exact H|].
  destruct (add_val x (SFopp y) Fx Fo) as [_ E']; [rewrite S; exact B|]. change (sf_add x (SFopp y)) with (add x (SFopp y : f64)) in E'.
  rewrite E', S in R. exact R.
Qed.

Lemma Rsum_cons x l : Rsum (x :: l) = x + Rsum l. Proof. reflexivity. Qed.
Lemma Rsum_map_plus {A} (f g : A -> R) l : Rsum (map (fun x => f x + g x) l) = Rsum (map f l) + Rsum (map g l).
Proof. induction l as [|x l IH]; cbn [map]; rewrite ?Rsum_cons; [unfold Rsum; simpl; lra|]. rewrite IH. lra. Qed.
Lemma Rsum_map_mul {A} c (f : A -> R) l : Rsum (map (fun x => c * f x) l) = c * Rsum (map f l).
Proof. induction l as [|x l IH]; cbn [map]; rewrite ?Rsum_cons; [unfold Rsum; simpl; lra|]. rewrite IH. lra. Qed.
Lemma Rsum_map_filter {A} (p : A -> bool) (f : A -> R) l : Rsum (map f (filter p l)) = Rsum (map (fun x => if p x then f x else 0) l).
Proof. induction l as [|x l IH]; [reflexivity|]. cbn [filter map]. destruct (p x); cbn [map]; rewrite !Rsum_cons, IH; lra. Qed.
Lemma Rsum_const {A} (l : list A) : Rsum (map (fun _ => 1) l) = INR (length l).
Proof. induction l as [|x l IH]; [reflexivity|]. cbn [map length]. rewrite Rsum_cons, IH, S_INR. lra. Qed.

(** a float, the number it stands for, and a bound on its error *)
Notation entry := (f64 * (R * R))%type.
Definition entry_ok (x : entry) : Prop := S_float.within (fst x) (fst (snd x)) (snd (snd x)).
Definition evals (l : list entry) : R := Rsum (map (fun x => fst (snd x)) l).
Definition eerrs (l : list entry) : R := Rsum (map (fun x => snd (snd x)) l).
Definition emags (l : list entry) : R := Rsum (map (fun x => Rabs (fst (snd x)) + snd (snd x)) l).

Lemma entry_mag x : entry_ok x -> 0 <= snd (snd x) /\ Rabs (fval (fst x)) <= Rabs (fst (snd x)) + snd (snd x).
Proof.
  intros [_ H]. split; [eapply Rle_trans; [apply Rabs_pos|exact H]|].
  replace (fval (fst x)) with ((fval (fst x) - fst (snd x)) + fst (snd x)) by ring. eapply Rle_trans; [apply Rabs_triang|]. lra.
Qed.

Lemma sum_signed l : Forall entry_ok l -> INR (length l) * u64 <= / 2048 -> emags l <= powerRZ 2 900 ->
  S_float.within (fsum (map fst l)) (evals l) (eerrs l + 101 / 100 * INR (length l) * u64 * emags l).
Proof.
  assert (U : 0 < u64 <= / 1000000) by (unfold u64; lra). assert (P900 : 0 < powerRZ 2 900) by apply pow2_pos.
  assert (P : 2 * powerRZ 2 900 <= powerRZ 2 1000).
  { replace (2 * powerRZ 2 900) with (powerRZ 2 901); [apply pow2_le; lia|]. replace 901%Z with (1 + 900)%Z by reflexivity. rewrite <- pow2_mul. simpl (powerRZ 2 1). ring. }
  induction l as [|x l IH] using rev_ind; intros Hl Hn Hm.
  - split; [exact I|]. unfold evals, eerrs, emags. cbn. rewrite Rminus_0_r, Rabs_R0. lra.
  - apply Forall_app in Hl as [Hl Hx]. inversion Hx as [|? ? Hx' _]; subst. destruct (entry_mag x Hx') as [E0 E1].
    unfold evals, eerrs, emags in *. rewrite app_length, plus_INR in *. cbn [length INR] in *. rewrite !map_app in *. rewrite !Rsum_app in *. cbn [map] in *. rewrite !Rsum_cons in *.
    change (Rsum []) with 0 in *. pose proof (pos_INR (length l)) as HN.
    assert (M0 : 0 <= Rsum (map (fun x : entry => Rabs (fst (snd x)) + snd (snd x)) l)).
    { apply Rsum_pos_map. intros y Hy. rewrite Forall_forall in Hl. pose proof (proj1 (entry_mag y (Hl y Hy))). pose proof (Rabs_pos (fst (snd y))). lra. }
    pose proof (Rabs_pos (fst (snd x))) as A0.
    destruct IH as [F W]; [exact Hl|nra|lra|].
    set (N := INR (length l)) in *. set (V := Rsum (map (fun x : entry => fst (snd x)) l)) in *. set (T := Rsum (map (fun x : entry => snd (snd x)) l)) in *.
    set (M := Rsum (map (fun x : entry => Rabs (fst (snd x)) + snd (snd x)) l)) in *.
    assert (EF : fsum (map fst l ++ [fst x]) = add (fsum (map fst l)) (fst x)) by (unfold fsum; rewrite fold_left_app; reflexivity).
    rewrite EF. destruct Hx' as [Fx Wx].
    assert (VT : Rabs V + T <= M).
    { unfold V, T, M. clear. induction l as [|y l IH]; cbn [map]; rewrite ?Rsum_cons; [unfold Rsum; simpl; rewrite Rabs_R0; lra|].
      pose proof (Rabs_triang (fst (snd y)) (Rsum (map (fun x : entry => fst (snd x)) l))). lra. }
    assert (NU : 0 <= N * u64) by nra.
    assert (NM : N * u64 * M <= / 2048 * M) by (apply Rmult_le_compat_r; nra).
    assert (B : Rabs (fval (fsum (map fst l)) + fval (fst x)) <= (101 / 100 * N * u64 + 1) * M + Rabs (fst (snd x)) + snd (snd x)).
    { eapply Rle_trans; [apply Rabs_triang|].
      assert (Rabs (fval (fsum (map fst l))) <= Rabs V + (T + 101 / 100 * N * u64 * M)).
      { replace (fval (fsum (map fst l))) with (V + (fval (fsum (map fst l)) - V)) by ring. eapply Rle_trans; [apply Rabs_triang|]. lra. }
      lra. }
    destruct (add_rel (fsum (map fst l)) (fst x) F Fx) as [F' E'].
    { eapply Rle_trans; [exact B|]. lra. }
    split; [exact F'|].
    set (y := fval (add (fsum (map fst l)) (fst x))) in *. set (a := fval (fsum (map fst l))) in *. set (b := fval (fst x)) in *.
    replace (y - (V + (fst (snd x) + 0))) with ((y - (a + b)) + ((a - V) + (b - fst (snd x)))) by ring.
    eapply Rle_trans; [apply Rabs_triang|]. assert (R2 := Rabs_triang (a - V) (b - fst (snd x))).
    assert (K : u64 * Rabs (a + b) <= u64 * ((101 / 100 * N * u64 + 1) * M + Rabs (fst (snd x)) + snd (snd x))) by (apply Rmult_le_compat_l; lra).
    set (c := Rabs (fst (snd x)) + snd (snd x)) in *. assert (C0 : 0 <= c) by (unfold c; lra).
    assert (K1 : u64 * (N * u64 * M) <= u64 * (/ 2048 * M)) by (apply Rmult_le_compat_l; lra).
    assert (K2 : 0 <= N * u64 * c) by (apply Rmult_le_pos; lra). assert (K3 : 0 <= u64 * M) by (apply Rmult_le_pos; lra). assert (K4 : 0 <= u64 * c) by (apply Rmult_le_pos; lra).
    replace (101 / 100 * (N + 1) * u64 * (M + (c + 0))) with (101/100 * (N * u64 * M) + 101/100 * (N * u64 * c) + 101/100 * (u64 * M) + 101/100 * (u64 * c)) by ring.
    replace (u64 * ((101 / 100 * N * u64 + 1) * M + Rabs (fst (snd x)) + snd (snd x))) with (101/100 * (u64 * (N * u64 * M)) + u64 * M + u64 * c) in K by (unfold c; ring).
    lra.
Qed.

Lemma add_nan_l (x : f64) : add (nan : f64) x = nan. Proof. reflexivity. Qed.
Lemma add_nan_r (x : f64) : add x (nan : f64) = nan. Proof. destruct x; reflexivity. Qed.
Lemma fsum_nan (l : list f64) : In (nan : f64) l -> fsum l = nan.
Proof.
  intros H. apply in_split in H as (l1 & l2 & ->). unfold fsum. rewrite fold_left_app. cbn [fold_left]. rewrite add_nan_r.
  induction l2 as [|x l2 IH]; [reflexivity|]. cbn [fold_left]. rewrite add_nan_l. exact IH.
Qed.

(** ** sums of listed entries *)
Lemma agg64 {B} (key : B -> nat) (val : B -> f64) l n : (forall x, In x l -> (key x < n)%nat) ->
  exists s, aggsum (map val l) (map (fun x => Z.of_nat (key x)) l) n = Ok s /\ length s = n
    /\ forall j, (j < n)%nat -> nth_error s j = Some (fsum (map val (filter (fun x => Nat.eqb (key x) j) l))).
Proof.
  intros H. destruct (aggsum_ok (map val l) (map (fun x => Z.of_nat (key x)) l) n) as (s & E & L & Hs).
  - rewrite !map_length. lia.
  - intros k Hk. apply in_map_iff in Hk as (x & <- & Hx). specialize (H x Hx). lia.
  - exists s. split; [exact E|]. split; [exact L|]. intros j Hj. rewrite (Hs j Hj). unfold fsum. do 2 f_equal.
    unfold group. clear. induction l as [|x l IH]; [reflexivity|]. cbn [map combine filter fst].
    destruct (Nat.eqb_spec (key x) j) as [->|Hn].
    + rewrite Z.eqb_refl. cbn [map snd]. rewrite IH. reflexivity.
    + destruct (Z.eqb_spec (Z.of_nat (key x)) (Z.of_nat j)); [lia|]. exact IH.
Qed.
Lemma coo64 {B} (row col : B -> nat) (val : B -> f64) l i j :
  coo_entry (map (fun x => (row x, col x)) l) (map val l) i j = fsum (map val (filter (fun x => Nat.eqb (row x) i && Nat.eqb (col x) j) l)).
Proof.
  unfold coo_entry, fsum. f_equal. induction l as [|x l IH]; [reflexivity|]. cbn [map combine filter fst snd].
  destruct (Nat.eqb (row x) i && Nat.eqb (col x) j); cbn [map snd]; rewrite IH; reflexivity.
Qed.
Lemma nth_error_map2 {A} (h : A -> A -> A) : forall l l' k x y, nth_error l k = Some x -> nth_error l' k = Some y -> nth_error (map2 h l l') k = Some (h x y).
Proof.
  unfold map2. induction l as [|a l IH]; intros [|c l'] [|k] x y E E'; try discriminate; cbn [nth_error combine map fst snd] in *.
  - congruence.
  - exact (IH l' k x y E E').
Qed.
Lemma filter_diag : forall (l : list f64) s i j, filter (fun x : nat * f64 => Nat.eqb (fst x) i && Nat.eqb (fst x) j) (combine (seq s (length l)) l)
  = if Nat.eqb i j && Nat.leb s i then match nth_error l (i - s) with Some d => [(i, d)] | None => [] end else [].
Proof.
  induction l as [|d l IH]; intros s i j.
  - cbn [length seq combine filter]. destruct (_ && _); [|reflexivity]. destruct (i - s)%nat; reflexivity.
  - cbn [length seq combine filter fst]. rewrite IH. destruct (Nat.eqb_spec i j) as [<-|Hn]; cbn [andb].
    + destruct (Nat.eqb_spec s i) as [<-|Hs]; cbn [andb].
      * destruct (Nat.leb_spec (S s) s); [lia|]. rewrite Nat.leb_refl, Nat.sub_diag. reflexivity.
      * destruct (Nat.leb_spec (S s) i), (Nat.leb_spec s i); try lia; [|reflexivity]. replace (i - s)%nat with (S (i - S s)) by lia. reflexivity.
    + destruct (Nat.eqb_spec s i) as [->|]; cbn [andb]; [|reflexivity]. destruct (Nat.eqb_spec i j); [contradiction|reflexivity].
Qed.
Lemma filter_row {B} (h : B -> bool) : forall (l : list B) s k, filter (fun x : nat * B => Nat.eqb (fst x) k && h (snd x)) (combine (seq s (length l)) l)
  = if Nat.leb s k then match nth_error l (k - s) with Some x => if h x then [(k, x)] else [] | None => [] end else [].
Proof.
  induction l as [|y l IH]; intros s k.
  - cbn [length seq combine filter]. destruct (Nat.leb s k); [|reflexivity]. destruct (k - s)%nat; reflexivity.
  - cbn [length seq combine filter fst snd]. rewrite IH. destruct (Nat.eqb_spec s k) as [<-|Hs]; cbn [andb].
    + destruct (Nat.leb_spec (S s) s); [lia|]. rewrite Nat.leb_refl, Nat.sub_diag. cbn [nth_error]. destruct (h y); reflexivity.
    + destruct (Nat.leb_spec (S s) k), (Nat.leb_spec s k); try lia; [|reflexivity]. replace (k - s)%nat with (S (k - S s)) by lia. reflexivity.
Qed.
Lemma combine_app' {A B} : forall (l : list A) (l' : list B) r r', length l = length l' -> combine (l ++ r) (l' ++ r') = combine l l' ++ combine r r'.
Proof. induction l as [|x l IH]; intros [|y l'] r r' H; try discriminate; cbn [app combine]; [reflexivity|]. rewrite IH by (cbn in H; lia). reflexivity. Qed.
Lemma filter_map' {A B} (h : A -> B) p l : filter p (map h l) = map h (filter (fun x => p (h x)) l).
Proof. induction l as [|x l IH]; [reflexivity|]. cbn [map filter]. destruct (p (h x)); cbn [map]; rewrite IH; reflexivity. Qed.

(** ** the helper *)
Lemma np_bin_map {B} (f : f64 -> f64 -> f64) (h k : B -> f64) (L : list B) : np_bin f (map h L) (map k L) = Ok (map (fun x => f (h x) (k x)) L).
Proof. rewrite np_bin_eq by (rewrite !map_length; reflexivity). f_equal. unfold map2. induction L; simpl; congruence. Qed.
Lemma np_mask_map {A B} (h : A -> B) (p : A -> bool) l : np_mask (map h l) (map p l) = Ok (map h (filter p l)).
Proof.
  unfold np_mask. rewrite !map_length, Nat.eqb_refl. f_equal. induction l as [|x l IH]; [reflexivity|]. cbn [map combine filter snd].
  destruct (p x); cbn [map fst]; rewrite IH; reflexivity.
Qed.
Lemma combine_fst' {A B} : forall (l : list A) (l' : list B), length l = length l' -> map fst (combine l l') = l.
Proof. induction l as [|x l IH]; intros [|y l'] H; try discriminate; cbn [combine map fst]; [reflexivity|]. f_equal. apply IH. cbn in H; lia. Qed.
Lemma combine_snd' {A B} : forall (l : list A) (l' : list B), length l = length l' -> map snd (combine l l') = l'.
Proof. induction l as [|x l IH]; intros [|y l'] H; try discriminate; cbn [combine map snd]; [reflexivity|]. f_equal. apply IH. cbn in H; lia. Qed.

Definition fac_ok (f : f64) (w : R) : Prop :=
  finite64 f /\ Rabs (fval f - w) <= 3 * u64 * w /\ (w = 0 \/ powerRZ 2 (-200) <= w) /\ 0 <= w <= powerRZ 2 200.

Section System.
  Variable eos_s_t : f64 -> f64 -> f64 -> res (f64 * f64).
  Variables (stp : list (f64 * f64 * f64)) (edges : list (nat * nat)) (FAC : list f64) (W : list R) (m : list nat) (mref : nat).
  Variables (err : nat -> nat -> option R) (b : R) (g : @geom f64).
  Hypothesis Hg : gexp g (length edges) FAC.
  Hypothesis HF : Forall2 fac_ok FAC W.
  Hypothesis Hd : NoDup m.
  Hypothesis Hm : In mref m.
  Hypothesis Hlt : forall i, In i m -> (i < length stp)%nat.
  Hypothesis Hin : Forall (fun e => (fst e < length stp)%nat /\ (snd e < length stp)%nat) edges.
  Hypothesis Heps : forall a c, In a m -> In c m -> exists x y e, get stp a = Ok x /\ get stp c = Ok y /\ epsilon_1 eos_s_t x y = Ok e
    /\ error_holds (err a c) b e /\ forall r, err a c = Some r -> Rabs r <= 1000.
  Hypothesis Hb : powerRZ 2 (-100) <= b <= 1.
  Hypothesis Hne : INR (length edges) <= powerRZ 2 40.
  Notation item := ((nat * nat) * (f64 * R))%type.
  Notation N := (length m).

  Definition eps64 (a c : nat) : f64 :=
    match get stp a, get stp c with
    | Ok x, Ok y => match epsilon_1 eos_s_t x y with Ok e => div e one | Err _ => nan end
    | _, _ => nan
    end.
  Definition pairs : list item := combine edges (combine FAC W).
  Definition inside (x : item) : bool := mem (fst (fst x)) m && mem (snd (fst x)) m.
  Definition its : list item := filter inside pairs.
  Definition unit_scalar : bool := match g with Sc r => eqb r one | Ar _ => false end.
  Definition prod64 (x : item) : f64 :=
    if unit_scalar then eps64 (fst (fst x)) (snd (fst x)) else mul (eps64 (fst (fst x)) (snd (fst x))) (fst (snd x)).

  Lemma len_FAC : length FAC = length edges. Proof. destruct Hg as [H _]. exact H. Qed.
  Lemma len_W : length W = length edges. Proof. rewrite <- (P_ntpnorms64.Forall2_length _ _ _ HF). exact len_FAC. Qed.
  Lemma len_c : length edges = length (combine FAC W).
  Proof. rewrite combine_length, len_FAC, len_W. lia. Qed.
  Lemma pairs_edges : map fst pairs = edges. Proof. apply combine_fst'. exact len_c. Qed.
  Lemma pairs_fac : map (fun x => fst (snd x)) pairs = FAC.
  Proof. unfold pairs. rewrite <- (map_map snd fst), combine_snd' by exact len_c. apply combine_fst'. rewrite len_FAC, len_W. reflexivity. Qed.
  Lemma pairs_inner : inner m edges W = map (fun x => (fst x, snd (snd x))) its.
  Proof.
    unfold inner, its, pairs. assert (L1 := len_FAC). assert (L2 := len_W). revert L1 L2. generalize edges FAC W. clear.
    induction edges as [|e l IH]; intros [|f F] [|w V] L1 L2; try discriminate; [reflexivity|]. cbn [combine filter].
    unfold inside at 1. cbn [fst snd]. destruct (mem (fst e) m && mem (snd e) m); cbn [map fst snd]; rewrite (IH F V) by (cbn in *; lia); reflexivity.
  Qed.
  Lemma its_in x : In x its -> In (fst (fst x)) m /\ In (snd (fst x)) m /\ fac_ok (fst (snd x)) (snd (snd x)) /\ In x pairs.
  Proof.
    intros H. apply filter_In in H as [H G]. apply andb_true_iff in G as [Ga Gb]. apply mem_iff in Ga, Gb. split; [exact Ga|]. split; [exact Gb|]. split; [|exact H].
    destruct x as [e [f w]]. unfold pairs in H. apply in_combine_r in H. cbn [fst snd]. clear - H HF. induction HF as [|f' w' F V Hf HF' IH]; [destruct H|].
    cbn [combine In] in H. destruct H as [E|H]; [injection E as <- <-; exact Hf|exact (IH HF' H)].
  Qed.
  Lemma eps64_ok a c : In a m -> In c m -> (let! x := get stp a in let! y := get stp c in epsilon_1 eos_s_t x y) = Ok (match get stp a, get stp c with
    | Ok x, Ok y => match epsilon_1 eos_s_t x y with Ok e => e | Err _ => nan end | _, _ => nan end) /\ error_holds (err a c) b (eps64 a c).
  Proof.
    intros Ha Hc. destruct (Heps a c Ha Hc) as (x & y & e & Ex & Ey & Ee & H & _). unfold eps64. rewrite Ex, Ey. cbn [bind]. rewrite Ee.
    split; [reflexivity|apply holds_div_one; exact H].
  Qed.

  Lemma helper64 : matsolve_helper eos_s_t stp edges g m mref
    = Ok (map (fun x => (pos m (fst (fst x)), pos m (snd (fst x)))) its, map prod64 its, map (fun x => fst (snd x)) its, Z.of_nat (pos m mref)).
  Proof.
    unfold matsolve_helper.
    destruct (np_set_all_ok (repeat (-1)%Z (length stp)) m (map Z.of_nat (seq 0 (length m)))) as (remap & E & L & H1 & H2); trivial.
    { rewrite map_length, seq_length. reflexivity. }
    { intros i Hi. rewrite repeat_length. apply Hlt. exact Hi. }
    rewrite repeat_length in L. rewrite E. cbn [bind].
    assert (Rin : forall i, In i m -> np_get remap i = Ok (Z.of_nat (pos m i))).
    { intros i Hi. apply np_get_ok. apply (H1 (pos m i)); [apply pos_nth; exact Hi|].
      rewrite nth_error_map, (nth_error_nth' _ 0%nat) by (rewrite seq_length; apply pos_lt; exact Hi).
      rewrite seq_nth by (apply pos_lt; exact Hi). reflexivity. }
    assert (Rout : forall i, (i < length stp)%nat -> ~ In i m -> np_get remap i = Ok (-1)%Z).
    { intros i Hi Hn. apply np_get_ok. rewrite H2 by exact Hn. apply nth_error_repeat_lt. exact Hi. }
    rewrite <- pairs_edges at 1.
    rewrite (mapM_map _ (fun e => mem (fst e) m && mem (snd e) m)).
    2:{ intros e He. rewrite pairs_edges in He. rewrite Forall_forall in Hin. destruct (Hin e He) as [Ha Hc].
        assert (G : forall i, (i < length stp)%nat -> exists z, np_get remap i = Ok z /\ (0 <=? z)%Z = mem i m).
        { intros i Hi. destruct (mem i m) eqn:Em.
          - apply mem_iff in Em. eexists. split; [apply Rin; exact Em|]. apply Z.leb_le. lia.
          - eexists. split; [apply Rout; [exact Hi|]|reflexivity]. intros Hi'. apply mem_iff in Hi'. congruence. }
        destruct (G _ Ha) as (za & -> & Ea). destruct (G _ Hc) as (zb & -> & Eb). cbn [bind]. rewrite Ea, Eb. reflexivity. }
    cbn [bind]. rewrite map_map. change (fun x : item => mem (fst (fst x)) m && mem (snd (fst x)) m) with inside.
    rewrite <- pairs_edges at 1. rewrite np_mask_map. cbn [bind]. fold its.
    unfold ntp_epsilon_errors, ntp_epsilon_error1. cbn [bind].
    rewrite (mapM_map _ (fun e : nat * nat => match get stp (fst e), get stp (snd e) with
      | Ok x, Ok y => match epsilon_1 eos_s_t x y with Ok e => e | Err _ => nan end | _, _ => nan end)).
    2:{ intros e He. apply in_map_iff in He as (x & <- & Hx). apply its_in in Hx as (Ha & Hc & _). exact (proj1 (eps64_ok _ _ Ha Hc)). }
    cbn [bind garr]. rewrite np_bin_scalar, np_bin_eq by (rewrite repeat_length; reflexivity). cbn [bind]. rewrite !map_map.
    match goal with |- context [map2 div (map ?h its) (repeat one ?k)] => assert (EE : map2 div (map h its) (repeat one k) = map (fun x : item => eps64 (fst (fst x)) (snd (fst x))) its) end.
    { rewrite map_length. assert (HI : forall x, In x its -> In (fst (fst x)) m /\ In (snd (fst x)) m) by (intros x Hx; apply its_in in Hx; tauto).
      revert HI. generalize its. intros l. induction l as [|x l IH]; intros HI; [reflexivity|]. cbn [map length repeat]. unfold map2 in *. cbn [combine map fst snd].
      rewrite IH by (intros y Hy; apply HI; right; exact Hy). f_equal. destruct (HI x (or_introl eq_refl)) as [Ha Hc].
      destruct (Heps _ _ Ha Hc) as (y & z & e & Ey & Ez & Ee & _). unfold eps64. rewrite Ey, Ez, Ee. reflexivity. }
    rewrite EE. clear EE.
    assert (EF : (match g with
      | Sc r => let fac0 := repeat r (length (map (fun x : item => eps64 (fst (fst x)) (snd (fst x))) its)) in
                if eqb r one then Ok (map (fun x : item => eps64 (fst (fst x)) (snd (fst x))) its, fac0)
                else (let! e := np_bin mul (map (fun x : item => eps64 (fst (fst x)) (snd (fst x))) its) fac0 in Ok (e, fac0))
      | Ar l => let! fac0 := np_mask l (map inside pairs) in
                let! e := np_bin mul (map (fun x : item => eps64 (fst (fst x)) (snd (fst x))) its) fac0 in Ok (e, fac0)
      end) = Ok (map prod64 its, map (fun x : item => fst (snd x)) its)).
    { unfold prod64, unit_scalar. destruct Hg as [_ [Eg|(c & Eg & Ec)]]; rewrite Eg.
      - rewrite <- pairs_fac at 1. rewrite np_mask_map. cbn [bind]. fold its. rewrite np_bin_map. cbn [bind]. reflexivity.
      - assert (Hc : forall x, In x its -> fst (snd x) = c).
        { intros x Hx. apply its_in in Hx as (_ & _ & _ & Hx). apply (in_map (fun x : item => fst (snd x))) in Hx. rewrite pairs_fac, Ec in Hx. apply repeat_spec in Hx. exact Hx. }
        assert (Er : repeat c (length (map (fun x : item => eps64 (fst (fst x)) (snd (fst x))) its)) = map (fun x : item => fst (snd x)) its).
        { rewrite map_length. revert Hc. generalize its. clear. intros l Hl. induction l as [|x l IH]; [reflexivity|]. cbn [length repeat map].
          rewrite (Hl x) by (left; reflexivity). f_equal. apply IH. intros; apply Hl; right; assumption. }
        cbv zeta. rewrite Er. destruct (eqb c one); [reflexivity|]. rewrite np_bin_map. reflexivity. }
    match goal with |- (let! ef := ?X in _) = _ => replace X with (Ok (map prod64 its, map (fun x : item => fst (snd x)) its)) by (symmetry; exact EF) end.
    cbn [bind].
    rewrite (mapM_map _ (fun e : nat * nat => (pos m (fst e), pos m (snd e)))).
    2:{ intros e He. apply in_map_iff in He as (x & <- & Hx). apply its_in in Hx as (Ha & Hc & _).
        rewrite (Rin _ Ha). cbn [bind]. rewrite (Rin _ Hc). cbn [bind]. rewrite !Nat2Z.id. reflexivity. }
    cbn [bind]. rewrite (Rin _ Hm). cbn [bind]. rewrite map_map. reflexivity.
  Qed.

  (** *** the factor and the scaled error of an edge *)
  Notation wt x := (snd (snd (x : item))).
  Notation ea x := (fst (fst (x : item))).
  Notation ec x := (snd (fst (x : item))).
  Lemma u_small : 0 < u64 <= / 1000000000. Proof. unfold u64. lra. Qed.
  Lemma fac_item x : In x its -> S_float.within (fst (snd x)) (wt x) (3 * u64 * wt x) /\ 0 <= wt x <= powerRZ 2 200.
  Proof. intros H. apply its_in in H as (_ & _ & (F & E & _ & B) & _). split; [split; assumption|exact B]. Qed.
  Lemma eps_item x r : In x its -> err (ea x) (ec x) = Some r -> S_float.within (eps64 (ea x) (ec x)) r b /\ Rabs r <= 1000.
  Proof.
    intros H Er. apply its_in in H as (Ha & Hc & _). destruct (eps64_ok _ _ Ha Hc) as [_ G]. rewrite Er in G. split; [exact G|].
    destruct (Heps _ _ Ha Hc) as (_ & _ & _ & _ & _ & _ & _ & M). exact (M r Er).
  Qed.

  Lemma prod_item x r : In x its -> err (ea x) (ec x) = Some r ->
    S_float.within (prod64 x) (wt x * r) (wt x * (101 / 100 * b) + 5 * u64 * (wt x * Rabs r)).
  Proof.
    intros H Er. destruct (eps_item x r H Er) as [[Fe We] Mr]. assert (H' := its_in x H). destruct H' as (Ha & Hc & (Ff & Wf & D & W0 & W1) & Hp).
    assert (U := u_small). assert (B0 : 0 < b) by (pose proof (pow2_pos (-100)); lra).
    set (e := eps64 (ea x) (ec x)) in *. set (w := wt x) in *. set (f := fst (snd x)) in *.
    assert (WB : 0 <= w * b) by nra. assert (WR : 0 <= w * Rabs r) by (apply Rmult_le_pos; [lra|apply Rabs_pos]).
    assert (uw : 0 <= u64 * w) by nra.
    assert (Ae : Rabs (fval e) <= Rabs r + b).
    { replace (fval e) with (r + (fval e - r)) by ring. eapply Rle_trans; [apply Rabs_triang|]. lra. }
    assert (Af : Rabs (fval f) <= w + 3 * u64 * w).
    { replace (fval f) with (w + (fval f - w)) by ring. eapply Rle_trans; [apply Rabs_triang|]. rewrite (Rabs_pos_eq w) by lra. lra. }
    assert (uWB : 0 <= u64 * (w * b)) by (apply Rmult_le_pos; lra). assert (uWR : 0 <= u64 * (w * Rabs r)) by (apply Rmult_le_pos; lra).
    assert (uWB' : u64 * (w * b) <= / 1000000000 * (w * b)) by (apply Rmult_le_compat_r; lra).
    assert (uuWR : u64 * (u64 * (w * Rabs r)) <= / 1000000000 * (u64 * (w * Rabs r))) by (apply Rmult_le_compat_r; lra).
    assert (uuWB : u64 * (u64 * (w * b)) <= / 1000000000 * (u64 * (w * b))) by (apply Rmult_le_compat_r; lra).
    assert (D1 : Rabs (fval e * fval f - w * r) <= w * b + 3 * (u64 * (w * b)) + 3 * (u64 * (w * Rabs r))).
    { replace (fval e * fval f - w * r) with (fval f * (fval e - r) + (fval f - w) * r) by ring. eapply Rle_trans; [apply Rabs_triang|]. rewrite !Rabs_mult.
      assert (Rabs (fval f) * Rabs (fval e - r) <= (w + 3 * u64 * w) * b) by (apply Rmult_le_compat; try apply Rabs_pos; assumption).
      assert (Rabs (fval f - w) * Rabs r <= 3 * u64 * w * Rabs r) by (apply Rmult_le_compat_r; [apply Rabs_pos|assumption]).
      nra. }
    unfold prod64, unit_scalar. fold e f.
    assert (M : S_float.within (mul e f) (w * r) (w * (101 / 100 * b) + 5 * u64 * (w * Rabs r))).
    { assert (P1 : Rabs (fval e * fval f) <= w * Rabs r + w * b + 3 * (u64 * (w * b)) + 3 * (u64 * (w * Rabs r))).
      { replace (fval e * fval f) with (w * r + (fval e * fval f - w * r)) by ring. eapply Rle_trans; [apply Rabs_triang|]. rewrite Rabs_mult, (Rabs_pos_eq w) by lra. lra. }
      assert (P2 : w * Rabs r + w * b + 3 * (u64 * (w * b)) + 3 * (u64 * (w * Rabs r)) <= powerRZ 2 1000).
      { assert (w * Rabs r <= powerRZ 2 200 * 1000) by (apply Rmult_le_compat; try apply Rabs_pos; lra). assert (w * b <= powerRZ 2 200 * 1) by (apply Rmult_le_compat; lra).
        assert (u64 * (w * Rabs r) <= 1 * (w * Rabs r)) by (apply Rmult_le_compat_r; lra).
        assert (E : powerRZ 2 200 * powerRZ 2 20 <= powerRZ 2 1000) by (rewrite pow2_mul; apply pow2_le; lia). assert (E20 : powerRZ 2 20 = 1048576) by (simpl; lra). rewrite E20 in E. lra. }
      destruct D as [Dz|Dp].
      - assert (Z : fval f = 0).
        { rewrite Dz in Wf. rewrite Rmult_0_r, Rminus_0_r in Wf. pose proof (Rabs_pos (fval f)). destruct (Req_dec (fval f) 0) as [Hz|Hz]; [exact Hz|]. pose proof (Rabs_pos_lt _ Hz). lra. }
        destruct (mul_val e f Fe Ff) as [F E]; [rewrite Z, Rmult_0_r, rnd_0, Rabs_R0; apply bpow_gt_0|].
        split; [exact F|]. change (sf_mul e f) with (mul e f) in E. rewrite E, Z, Rmult_0_r, rnd_0, Dz, Rmult_0_l, Rminus_0_r, Rabs_R0. lra.
      - destruct (sf_mul_near e f Fe Ff) as [F E]; [unfold big64; lra|]. change (sf_mul e f) with (mul e f) in F, E. split; [exact F|].
        assert (ET : eta64 <= / 1000000 * (w * b)).
        { assert (powerRZ 2 (-200) * powerRZ 2 (-100) <= w * b) by (apply Rmult_le_compat; try (apply Rlt_le, pow2_pos); lra). rewrite pow2_mul in H0.
          unfold eta64. assert (powerRZ 2 (-1075) <= powerRZ 2 (-20) * powerRZ 2 (-200 + -100)) by (rewrite pow2_mul; apply pow2_le; lia).
          assert (E20 : powerRZ 2 (-20) = / 1048576) by (simpl; lra). rewrite E20 in H1. lra. }
        replace (fval (mul e f) - w * r) with ((fval (mul e f) - fval e * fval f) + (fval e * fval f - w * r)) by ring.
        eapply Rle_trans; [apply Rabs_triang|].
        assert (u64 * Rabs (fval e * fval f) <= u64 * (w * Rabs r + w * b + 3 * (u64 * (w * b)) + 3 * (u64 * (w * Rabs r)))) by (apply Rmult_le_compat_l; lra).
        lra. }
    assert (PF := pairs_fac). assert (HG := proj2 Hg). clear - D1 M H Er Fe We U WB WR uw uWB uWR uWB' uuWR Hp Ff PF HG B0 Wf W0.
    destruct g as [c|l]; [|exact M]. destruct (eqb c one) eqn:E1; [|exact M].
    assert (Ec : f = c).
    { destruct HG as [E|(c' & E & EF)]; [discriminate E|]. injection E as <-. apply (in_map (fun x : item => fst (snd x))) in Hp. rewrite PF in Hp. rewrite EF in Hp.
      exact (repeat_spec _ _ _ Hp). }
    assert (V1 : fval f = 1).
    { rewrite <- Ec in E1. assert (E2 : SFeqb f (lit 1 0 : f64) = true) by exact E1. rewrite (eqb_val f (lit 1 0 : f64) Ff (proj1 fl_one)), (proj2 fl_one) in E2. destruct (Req_bool_spec (fval f) 1) as [E|E]; [exact E|discriminate E2]. }
    rewrite V1, Rmult_1_r in D1. split; [exact Fe|]. lra.
  Qed.

  (** *** sums over some of the edges *)
  Definition cnt (p : item -> bool) : R := INR (length (filter p its)).
  Definition wsum (p : item -> bool) : R := Rsum (map (fun x => wt x) (filter p its)).
  Lemma filter_len {A} (p : A -> bool) l : (length (filter p l) <= length l)%nat.
  Proof. induction l as [|x l IH]; cbn [filter length]; [lia|]. destruct (p x); cbn [length]; lia. Qed.
  Lemma cnt_le p : 0 <= cnt p <= powerRZ 2 40.
  Proof.
    split; [apply pos_INR|]. eapply Rle_trans; [|exact Hne]. apply le_INR. eapply Nat.le_trans; [apply filter_len|]. unfold its.
    eapply Nat.le_trans; [apply filter_len|]. unfold pairs. rewrite combine_length. lia.
  Qed.
  Lemma P40 : powerRZ 2 40 = 1099511627776. Proof. simpl; lra. Qed.
  Lemma sum_bound {A} (h : A -> R) (B : R) l : (forall x, In x l -> h x <= B) -> Rsum (map h l) <= INR (length l) * B.
  Proof.
    induction l as [|x l IH]; intros H; [unfold Rsum; simpl; lra|]. cbn [map length]. rewrite Rsum_cons, S_INR.
    pose proof (H x (or_introl eq_refl)). specialize (IH (fun y Hy => H y (or_intror Hy))). lra.
  Qed.
  Lemma wsum_le p : 0 <= wsum p <= powerRZ 2 240.
  Proof.
    split.
    - apply Rsum_pos_map. intros x Hx. apply filter_In in Hx as [Hx _]. apply fac_item in Hx. lra.
    - unfold wsum. eapply Rle_trans; [apply (sum_bound (fun x => wt x) (powerRZ 2 200))|].
      + intros x Hx. apply filter_In in Hx as [Hx _]. apply fac_item in Hx. lra.
      + replace 240%Z with (40 + 200)%Z by reflexivity. rewrite <- pow2_mul. apply Rmult_le_compat_r; [apply Rlt_le, pow2_pos|apply cnt_le].
  Qed.
  Lemma u_val : u64 = / 9007199254740992. Proof. reflexivity. Qed.
  Lemma cnt_u p : 0 <= cnt p * u64 <= / 8192.
  Proof. assert (H := cnt_le p). rewrite P40 in H. rewrite u_val. lra. Qed.

  Definition fac_entry (x : item) : entry := (fst (snd x), (wt x, 3 * u64 * wt x)).
  Lemma fac_sum p : S_float.within (fsum (map (fun x : item => fst (snd x)) (filter p its))) (wsum p) ((3 * u64 + 102 / 100 * (cnt p * u64)) * wsum p).
  Proof.
    set (l := map fac_entry (filter p its)).
    assert (U := u_small). assert (C := cnt_u p). assert (S := wsum_le p).
    assert (E1 : evals l = wsum p) by (unfold evals, l; rewrite map_map; reflexivity).
    assert (E2 : eerrs l = 3 * u64 * wsum p) by (unfold eerrs, l; rewrite map_map; cbn [fac_entry fst snd]; apply Rsum_map_mul).
    assert (E3 : emags l = (1 + 3 * u64) * wsum p).
    { unfold emags, l, wsum. rewrite map_map, <- Rsum_map_mul. cbn [fac_entry fst snd]. f_equal. apply map_ext_in. intros x Hx. apply filter_In in Hx as [Hx _]. apply fac_item in Hx as [_ Hx].
      rewrite (Rabs_pos_eq (wt x)) by lra. ring. }
    assert (EN : INR (length l) = cnt p) by (unfold l, cnt; rewrite map_length; reflexivity).
    destruct (sum_signed l) as [F WW].
    - unfold l. rewrite Forall_forall. intros y Hy. apply in_map_iff in Hy as (x & <- & Hx). apply filter_In in Hx as [Hx _]. exact (proj1 (fac_item x Hx)).
    - rewrite EN. lra.
    - rewrite E3. assert (powerRZ 2 240 <= powerRZ 2 899) by (apply pow2_le; lia). assert (2 * powerRZ 2 899 = powerRZ 2 900).
      { replace 900%Z with (1 + 899)%Z by reflexivity. rewrite <- pow2_mul. simpl (powerRZ 2 1). ring. } 
      assert (u64 * wsum p <= / 1000000000 * wsum p) by (apply Rmult_le_compat_r; lra). lra.
    - assert (EF : map fst l = map (fun x : item => fst (snd x)) (filter p its)) by (unfold l; rewrite map_map; reflexivity).
      rewrite EF in F, WW. split; [exact F|]. rewrite E1, E2, E3, EN in WW. eapply Rle_trans; [exact WW|].
      assert (K : u64 * (cnt p * u64 * wsum p) <= / 1000000000 * (cnt p * u64 * wsum p)) by (apply Rmult_le_compat_r; [apply Rmult_le_pos|]; lra).
      assert (101 / 100 * cnt p * u64 * ((1 + 3 * u64) * wsum p) = 101 / 100 * (cnt p * u64 * wsum p) + 303 / 100 * (u64 * (cnt p * u64 * wsum p))) by (field).
      assert (0 <= cnt p * u64 * wsum p) by (apply Rmult_le_pos; lra). lra.
  Qed.

  Definition vsum (v : nat -> nat -> R) (p : item -> bool) : R := Rsum (map (fun x => wt x * v (ea x) (ec x)) (filter p its)).
  Definition asum (v : nat -> nat -> R) (p : item -> bool) : R := Rsum (map (fun x => wt x * Rabs (v (ea x) (ec x))) (filter p its)).
  Definition prod_entry (v : nat -> nat -> R) (x : item) : entry :=
    (prod64 x, (wt x * v (ea x) (ec x), wt x * (101 / 100 * b) + 5 * u64 * (wt x * Rabs (v (ea x) (ec x))))).
  Definition known (v : nat -> nat -> R) (p : item -> bool) : Prop :=
    forall x, In x its -> p x = true -> err (ea x) (ec x) = Some (v (ea x) (ec x)).
  Lemma asum_le v p : known v p -> Rabs (vsum v p) <= asum v p <= powerRZ 2 250.
  Proof.
    intros Hv. split.
    - unfold vsum, asum. assert (Hw : forall x, In x (filter p its) -> 0 <= wt x) by (intros x Hx; apply filter_In in Hx as [Hx _]; apply fac_item in Hx; lra).
      revert Hw. generalize (filter p its). clear. intros l Hw. induction l as [|x l IH]; cbn [map]; rewrite ?Rsum_cons; [unfold Rsum; simpl; rewrite Rabs_R0; lra|].
      eapply Rle_trans; [apply Rabs_triang|]. rewrite Rabs_mult, (Rabs_pos_eq (wt x)) by (apply Hw; left; reflexivity).
      specialize (IH (fun y Hy => Hw y (or_intror Hy))). lra.
    - unfold asum. eapply Rle_trans; [apply (sum_bound (fun x => wt x * Rabs (v (ea x) (ec x))) (powerRZ 2 210))|].
      + intros x Hx. apply filter_In in Hx as [Hx Hp]. destruct (fac_item x Hx) as [_ Hw]. destruct (eps_item x _ Hx (Hv x Hx Hp)) as [_ Hr].
        replace 210%Z with (200 + 10)%Z by reflexivity. rewrite <- pow2_mul. apply Rmult_le_compat; try apply Rabs_pos; [lra|lra|]. simpl (powerRZ 2 10). lra.
      + replace 250%Z with (40 + 210)%Z by reflexivity. rewrite <- pow2_mul. apply Rmult_le_compat_r; [apply Rlt_le, pow2_pos|apply cnt_le].
  Qed.
  Lemma prod_sum v p : known v p ->
    S_float.within (fsum (map prod64 (filter p its))) (vsum v p) (102 / 100 * (b * wsum p) + (5 * u64 + 102 / 100 * (cnt p * u64)) * asum v p).
  Proof.
    intros Hv. set (l := map (prod_entry v) (filter p its)).
    assert (U := u_small). assert (C := cnt_u p). assert (S := wsum_le p). assert (A := asum_le v p Hv). assert (A0 := Rabs_pos (vsum v p)).
    assert (E1 : evals l = vsum v p) by (unfold evals, l; rewrite map_map; reflexivity).
    assert (E2 : eerrs l = 101 / 100 * b * wsum p + 5 * u64 * asum v p).
    { unfold eerrs, l, wsum, asum. rewrite map_map, <- !Rsum_map_mul, <- Rsum_map_plus. cbn [prod_entry fst snd]. f_equal. apply map_ext. intros x. ring. }
    assert (E3 : emags l = 101 / 100 * b * wsum p + (1 + 5 * u64) * asum v p).
    { unfold emags, l, wsum, asum. rewrite map_map, <- !Rsum_map_mul, <- Rsum_map_plus. cbn [prod_entry fst snd]. f_equal. apply map_ext_in. intros x Hx. apply filter_In in Hx as [Hx _]. apply fac_item in Hx as [_ Hx].
      rewrite Rabs_mult, (Rabs_pos_eq (wt x)) by lra. ring. }
    assert (EN : INR (length l) = cnt p) by (unfold l, cnt; rewrite map_length; reflexivity).
    assert (B0 : 0 < b) by (pose proof (pow2_pos (-100)); lra).
    assert (BS : 0 <= b * wsum p <= 1 * wsum p) by (split; [apply Rmult_le_pos; lra|apply Rmult_le_compat_r; lra]).
    assert (UA : 0 <= u64 * asum v p <= / 1000000000 * asum v p) by (split; [apply Rmult_le_pos; lra|apply Rmult_le_compat_r; lra]).
    destruct (sum_signed l) as [F WW].
    - unfold l. rewrite Forall_forall. intros y Hy. apply in_map_iff in Hy as (x & <- & Hx). apply filter_In in Hx as [Hx Hp]. exact (prod_item x _ Hx (Hv x Hx Hp)).
    - rewrite EN. lra.
    - rewrite E3. assert (powerRZ 2 240 <= powerRZ 2 890) by (apply pow2_le; lia). assert (powerRZ 2 250 <= powerRZ 2 890) by (apply pow2_le; lia). assert (1024 * powerRZ 2 890 = powerRZ 2 900).
      { replace 900%Z with (10 + 890)%Z by reflexivity. rewrite <- pow2_mul. simpl (powerRZ 2 10). ring. } lra.
    - assert (EF : map fst l = map prod64 (filter p its)) by (unfold l; rewrite map_map; reflexivity).
      rewrite EF in F, WW. split; [exact F|]. rewrite E1, E2, E3, EN in WW. eapply Rle_trans; [exact WW|].
      set (a := asum v p) in *. set (s := b * wsum p) in *. set (k := cnt p * u64) in *.
      assert (K1 : k * s <= / 8192 * s) by (apply Rmult_le_compat_r; lra).
      assert (K2 : k * (u64 * a) <= / 8192 * (u64 * a)) by (apply Rmult_le_compat_r; lra).
      assert (K3 : 0 <= k * a) by (apply Rmult_le_pos; lra).
      assert (K4 : k * (u64 * a) <= / 1000000000 * (k * a)) by (replace (k * (u64 * a)) with (u64 * (k * a)) by ring; apply Rmult_le_compat_r; lra).
      replace (101 / 100 * cnt p * u64 * (101 / 100 * b * wsum p + (1 + 5 * u64) * a)) with (101/100 * (101/100 * (k * s) + (k * a) + 5 * (k * (u64 * a)))) by (unfold k, s; ring).
      replace (101 / 100 * b * wsum p) with (101 / 100 * s) by (unfold s; ring). lra.
  Qed.
  Lemma prod_sum_nan (p : item -> bool) : (exists x, In x its /\ p x = true /\ err (ea x) (ec x) = None) -> fsum (map prod64 (filter p its)) = nan.
  Proof.
    intros (x & Hx & Hp & He). apply fsum_nan. apply in_map_iff. exists x. split; [|apply filter_In; split; assumption].
    assert (H := its_in x Hx). destruct H as (Ha & Hc & _). destruct (eps64_ok _ _ Ha Hc) as [_ G]. rewrite He in G. cbn [error_holds] in G.
    unfold prod64. rewrite G. destruct unit_scalar; reflexivity.
  Qed.

  (** *** nodes and their positions *)
  Notation L := (inner m edges W).
  Definition pa (i : nat) (x : item) : bool := Nat.eqb i (ea x).
  Definition pc (i : nat) (x : item) : bool := Nat.eqb i (ec x).
  Lemma pos_eqb k i c : nth_error m k = Some i -> In c m -> Nat.eqb (pos m c) k = Nat.eqb i c.
  Proof.
    intros Hk Hc. assert (P := pos_inj m k i Hd Hk). destruct (Nat.eqb_spec i c) as [->|Hn].
    - apply Nat.eqb_eq. lia.
    - apply Nat.eqb_neq. intros E. apply Hn. assert (Q := pos_nth m c Hc). rewrite E, Hk in Q. congruence.
  Qed.
  Lemma filter_a k i : nth_error m k = Some i -> filter (fun x : item => Nat.eqb (pos m (ea x)) k) its = filter (pa i) its.
  Proof. intros Hk. apply filter_ext_in. intros x Hx. apply its_in in Hx as (Ha & _). apply pos_eqb; assumption. Qed.
  Lemma filter_c k i : nth_error m k = Some i -> filter (fun x : item => Nat.eqb (pos m (ec x)) k) its = filter (pc i) its.
  Proof. intros Hk. apply filter_ext_in. intros x Hx. apply its_in in Hx as (_ & Hc & _). apply pos_eqb; assumption. Qed.
  Lemma cnt_sum p : cnt p = Rsum (map (fun x => if p x then 1 else 0) its).
  Proof. unfold cnt. rewrite <- Rsum_const, Rsum_map_filter. reflexivity. Qed.
  Lemma sum_inner (h : wedge -> R) : Rsum (map h L) = Rsum (map (fun x : item => h (fst x, wt x)) its).
  Proof. rewrite pairs_inner, map_map. reflexivity. Qed.
  Lemma valency_cnt i : valency i L = cnt (pa i) + cnt (pc i).
  Proof. unfold valency. rewrite sum_inner, !cnt_sum, <- Rsum_map_plus. reflexivity. Qed.
  Lemma strength_wsum i : strength i L = wsum (pa i) + wsum (pc i).
  Proof.
    unfold strength, wsum. rewrite sum_inner, !Rsum_map_filter, <- Rsum_map_plus. f_equal. apply map_ext. intros x. unfold ends, ind, pa, pc. cbn [fst snd].
    destruct (Nat.eqb i (ea x)), (Nat.eqb i (ec x)); ring.
  Qed.
  Lemma divergence_vsum v i : divergence v L i = vsum v (pa i) - vsum v (pc i).
  Proof.
    unfold divergence, vsum. rewrite sum_inner, !Rsum_map_filter. unfold Rminus. replace (- Rsum (map (fun x => if pc i x then wt x * v (ea x) (ec x) else 0) its))
      with (-1 * Rsum (map (fun x => if pc i x then wt x * v (ea x) (ec x) else 0) its)) by ring. rewrite <- Rsum_map_mul, <- Rsum_map_plus. f_equal. apply map_ext. intros x.
    unfold sign_at, ind, pa, pc. cbn [fst snd]. destruct (Nat.eqb i (ea x)), (Nat.eqb i (ec x)); ring.
  Qed.
  Lemma divergence_asum v i : divergence_abs v L i = asum v (pa i) + asum v (pc i).
  Proof.
    unfold divergence_abs, asum. rewrite sum_inner, !Rsum_map_filter, <- Rsum_map_plus. f_equal. apply map_ext. intros x. unfold ends, ind, pa, pc. cbn [fst snd].
    destruct (Nat.eqb i (ea x)), (Nat.eqb i (ec x)); ring.
  Qed.
  Lemma cnt_mono (p q : item -> bool) : (forall x, p x = true -> q x = true) -> cnt p <= cnt q.
  Proof.
    intros H. rewrite !cnt_sum. apply sum_le. intros x _. specialize (H x). destruct (p x); [rewrite (H eq_refl); lra|]. destruct (q x); lra.
  Qed.
  Lemma wsum_mono (p q : item -> bool) : (forall x, p x = true -> q x = true) -> wsum p <= wsum q.
  Proof.
    intros H. unfold wsum. rewrite !Rsum_map_filter. apply sum_le. intros x Hx. apply fac_item in Hx as [_ Hx]. specialize (H x). destruct (p x); [rewrite (H eq_refl); lra|]. destruct (q x); lra.
  Qed.

  (** *** right hand side *)
  Lemma rhs_known v i : known v (pa i) -> known v (pc i) ->
    S_float.within (sub (fsum (map prod64 (filter (pa i) its))) (fsum (map prod64 (filter (pc i) its)))) (divergence v L i)
      (2 * b * strength i L + (valency i L + 3) * powerRZ 2 (-51) * divergence_abs v L i).
  Proof.
    intros Ha Hc. destruct (prod_sum v (pa i) Ha) as [Fa Wa]. destruct (prod_sum v (pc i) Hc) as [Fc Wc].
    assert (Aa := asum_le v _ Ha). assert (Ac := asum_le v _ Hc). assert (A0 := Rabs_pos (vsum v (pa i))). assert (A1 := Rabs_pos (vsum v (pc i))).
    assert (U := u_small). assert (Ca := cnt_u (pa i)). assert (Cc := cnt_u (pc i)). assert (Sa := wsum_le (pa i)). assert (Sc := wsum_le (pc i)).
    assert (Na := cnt_le (pa i)). assert (Nc := cnt_le (pc i)).
    rewrite divergence_vsum, strength_wsum, valency_cnt, divergence_asum.
    assert (P51 : powerRZ 2 (-51) = 4 * u64) by (rewrite u_val; simpl; lra). rewrite P51.
    assert (B0 : 0 < b) by (pose proof (pow2_pos (-100)); lra).
    set (X := fval (fsum (map prod64 (filter (pa i) its)))) in *. set (Y := fval (fsum (map prod64 (filter (pc i) its)))) in *.
    set (va := vsum v (pa i)) in *. set (vc := vsum v (pc i)) in *. set (sa := asum v (pa i)) in *. set (sc := asum v (pc i)) in *.
    set (na := cnt (pa i)) in *. set (nc := cnt (pc i)) in *. set (wa := wsum (pa i)) in *. set (wc := wsum (pc i)) in *.
    assert (BS : 0 <= b * (wa + wc) <= 1 * (wa + wc)) by (split; [apply Rmult_le_pos; lra|apply Rmult_le_compat_r; lra]).
    assert (UA : 0 <= u64 * (sa + sc) <= / 1000000000 * (sa + sc)) by (split; [apply Rmult_le_pos; lra|apply Rmult_le_compat_r; lra]).
    assert (K1 : 0 <= (na * u64) * sc) by (apply Rmult_le_pos; lra). assert (K2 : 0 <= (nc * u64) * sa) by (apply Rmult_le_pos; lra).
    assert (T1 : Rabs (X - va) + Rabs (Y - vc) <= 102 / 100 * (b * (wa + wc)) + 5 * (u64 * (sa + sc)) + 102 / 100 * ((na + nc) * u64 * (sa + sc))).
    { eapply Rle_trans; [apply Rplus_le_compat; [exact Wa|exact Wc]|]. nra. }
    assert (K3 : (na + nc) * u64 * (sa + sc) <= / 4096 * (sa + sc)) by (apply Rmult_le_compat_r; lra).
    assert (K0 : 0 <= (na + nc) * u64 * (sa + sc)) by (apply Rmult_le_pos; lra).
    assert (XY : Rabs (X - Y) <= sa + sc + (102 / 100 * (b * (wa + wc)) + 5 * (u64 * (sa + sc)) + 102 / 100 * ((na + nc) * u64 * (sa + sc)))).
    { replace (X - Y) with ((X - va) + (va + (- vc + - (Y - vc)))) by ring. pose proof (Rabs_triang (X - va) (va + (- vc + - (Y - vc)))).
      pose proof (Rabs_triang va (- vc + - (Y - vc))). pose proof (Rabs_triang (- vc) (- (Y - vc))). rewrite !Rabs_Ropp in *. lra. }
    destruct (sub_rel (fsum (map prod64 (filter (pa i) its))) (fsum (map prod64 (filter (pc i) its))) Fa Fc) as [F E].
    { fold X Y. eapply Rle_trans; [exact XY|]. assert (powerRZ 2 240 <= powerRZ 2 890) by (apply pow2_le; lia). assert (powerRZ 2 250 <= powerRZ 2 890) by (apply pow2_le; lia).
      assert (E10 : 1024 * powerRZ 2 890 = powerRZ 2 900). { replace 900%Z with (10 + 890)%Z by reflexivity. rewrite <- pow2_mul. simpl (powerRZ 2 10). ring. }
      assert (powerRZ 2 900 <= powerRZ 2 1000) by (apply pow2_le; lia). pose proof (pow2_pos 890). lra. }
    fold X Y in E. split; [exact F|]. set (Z := fval (sub (fsum (map prod64 (filter (pa i) its))) (fsum (map prod64 (filter (pc i) its))))) in *.
    replace (Z - (va - vc)) with ((Z - (X - Y)) + ((X - va) + - (Y - vc))) by ring. eapply Rle_trans; [apply Rabs_triang|].
    pose proof (Rabs_triang (X - va) (- (Y - vc))) as TT. rewrite Rabs_Ropp in TT.
    assert (K4 : u64 * Rabs (X - Y) <= u64 * (sa + sc + (102 / 100 * (b * (wa + wc)) + 5 * (u64 * (sa + sc)) + 102 / 100 * ((na + nc) * u64 * (sa + sc))))) by (apply Rmult_le_compat_l; lra).
    set (s := sa + sc) in *. set (w := b * (wa + wc)) in *. set (q := (na + nc) * u64 * s) in *.
    assert (K5 : u64 * w <= / 1000000000 * w) by (apply Rmult_le_compat_r; lra).
    assert (K6 : u64 * (u64 * s) <= / 1000000000 * (u64 * s)) by (apply Rmult_le_compat_r; lra).
    assert (K7 : u64 * q <= / 1000000000 * q) by (apply Rmult_le_compat_r; lra).
    replace ((na + nc + 3) * (4 * u64) * s) with (4 * q + 12 * (u64 * s)) by (unfold q; ring).
    replace (2 * b * (wa + wc)) with (2 * w) by (unfold w; ring). lra.
  Qed.

  (** *** matrix *)
  Definition diag64 (i : nat) : f64 := add (fsum (map (fun x : item => fst (snd x)) (filter (pa i) its))) (fsum (map (fun x : item => fst (snd x)) (filter (pc i) its))).
  Lemma diag_ok i : S_float.within (diag64 i) (strength i L) (402 / 100 * (u64 * strength i L) + 103 / 100 * (valency i L * u64 * strength i L)).
  Proof.
    destruct (fac_sum (pa i)) as [Fa Wa]. destruct (fac_sum (pc i)) as [Fc Wc].
    assert (U := u_small). assert (Ca := cnt_u (pa i)). assert (Cc := cnt_u (pc i)). assert (Sa := wsum_le (pa i)). assert (Sc := wsum_le (pc i)).
    rewrite strength_wsum, valency_cnt. unfold diag64.
    set (X := fsum (map (fun x : item => fst (snd x)) (filter (pa i) its))) in *. set (Y := fsum (map (fun x : item => fst (snd x)) (filter (pc i) its))) in *.
    set (na := cnt (pa i)) in *. set (nc := cnt (pc i)) in *. set (wa := wsum (pa i)) in *. set (wc := wsum (pc i)) in *.
    assert (K1 : 0 <= (na * u64) * wc) by (apply Rmult_le_pos; lra). assert (K2 : 0 <= (nc * u64) * wa) by (apply Rmult_le_pos; lra).
    set (s := wa + wc). set (q := (na + nc) * u64 * s).
    assert (K3 : 0 <= q) by (apply Rmult_le_pos; unfold s; lra). assert (K4 : q <= / 4096 * s) by (apply Rmult_le_compat_r; unfold s; lra).
    assert (K5 : 0 <= u64 * s <= / 1000000000 * s) by (split; [apply Rmult_le_pos|apply Rmult_le_compat_r]; unfold s; lra).
    assert (T1 : Rabs (fval X - wa) + Rabs (fval Y - wc) <= 3 * (u64 * s) + 102 / 100 * q).
    { eapply Rle_trans; [apply Rplus_le_compat; [exact Wa|exact Wc]|]. unfold q, s. nra. }
    assert (T2 : Rabs (fval X + fval Y) <= s + (3 * (u64 * s) + 102 / 100 * q)).
    { replace (fval X + fval Y) with (s + ((fval X - wa) + (fval Y - wc))) by (unfold s; ring). eapply Rle_trans; [apply Rabs_triang|].
      pose proof (Rabs_triang (fval X - wa) (fval Y - wc)). rewrite (Rabs_pos_eq s) by (unfold s; lra). lra. }
    destruct (add_rel X Y Fa Fc) as [F E].
    { eapply Rle_trans; [exact T2|]. assert (powerRZ 2 240 <= powerRZ 2 890) by (apply pow2_le; lia).
      assert (E10 : 1024 * powerRZ 2 890 = powerRZ 2 900). { replace 900%Z with (10 + 890)%Z by reflexivity. rewrite <- pow2_mul. simpl (powerRZ 2 10). ring. }
      assert (powerRZ 2 900 <= powerRZ 2 1000) by (apply pow2_le; lia). pose proof (pow2_pos 890). unfold s in *. lra. }
    split; [exact F|]. fold s. replace (fval (add X Y) - s) with ((fval (add X Y) - (fval X + fval Y)) + ((fval X - wa) + (fval Y - wc))) by (unfold s; ring).
    eapply Rle_trans; [apply Rabs_triang|]. pose proof (Rabs_triang (fval X - wa) (fval Y - wc)).
    assert (K6 : u64 * Rabs (fval X + fval Y) <= u64 * (s + (3 * (u64 * s) + 102 / 100 * q))) by (apply Rmult_le_compat_l; lra).
    assert (K7 : u64 * q <= / 1000000000 * q) by (apply Rmult_le_compat_r; lra).
    assert (K8 : u64 * (u64 * s) <= / 1000000000 * (u64 * s)) by (apply Rmult_le_compat_r; lra). fold q. lra.
  Qed.

  Definition neg_entry (x : item) : entry := (opp (fst (snd x)), (- wt x, 3 * u64 * wt x)).
  Definition both (i j : nat) (x : item) : bool := Nat.eqb i (ea x) && Nat.eqb j (ec x).
  Definition swap (i j : nat) (x : item) : bool := Nat.eqb i (ec x) && Nat.eqb j (ea x).
  Definition lap_entries (i j : nat) : list entry :=
    map neg_entry (filter (both i j) its) ++ map neg_entry (filter (swap i j) its)
    ++ if Nat.eqb i j then [(diag64 i, (strength i L, 402 / 100 * (u64 * strength i L) + 103 / 100 * (valency i L * u64 * strength i L)))] else [].

  Lemma lap_value pin i j : evals (lap_entries i j) + ind i pin * ind j pin = laplacian pin L i j.
  Proof.
    unfold laplacian. f_equal. unfold evals, lap_entries. rewrite !map_app, !Rsum_app, !map_map. cbn [neg_entry fst snd].
    rewrite sum_inner, !Rsum_map_filter.
    assert (E : Rsum (map (fun x : entry => fst (snd x)) (if Nat.eqb i j then [(diag64 i, (strength i L, 402 / 100 * (u64 * strength i L) + 103 / 100 * (valency i L * u64 * strength i L)))] else []))
      = Rsum (map (fun x : item => if Nat.eqb i j then ends i (fst x, wt x) * wt x else 0) its)).
    { destruct (Nat.eqb i j).
      - cbn [map fst snd]. rewrite Rsum_cons. unfold Rsum at 1. cbn [fold_right]. rewrite Rplus_0_r. unfold strength. rewrite sum_inner. reflexivity.
      - cbn [map]. unfold Rsum at 1. cbn [fold_right]. symmetry. induction its as [|x l IH]; [reflexivity|]. cbn [map]. rewrite Rsum_cons, IH. lra. }
    rewrite E, <- !Rsum_map_plus. f_equal. apply map_ext. intros x. unfold both, swap, sign_at, ends, ind. cbn [fst snd].
    destruct (Nat.eqb_spec i (ea x)) as [E1|], (Nat.eqb_spec i (ec x)) as [E2|], (Nat.eqb_spec j (ea x)) as [E3|], (Nat.eqb_spec j (ec x)) as [E4|],
      (Nat.eqb_spec i j) as [E5|]; cbn [andb]; try ring; exfalso; lia.
  Qed.

  Lemma lap_ok i j : S_float.within (fsum (map fst (lap_entries i j))) (evals (lap_entries i j))
    (10 * (u64 * strength i L) + 31 / 10 * (valency i L * u64 * strength i L)) /\ Rabs (evals (lap_entries i j)) <= strength i L /\ strength i L <= powerRZ 2 241.
  Proof.
    assert (U := u_small). assert (Ca := cnt_u (pa i)). assert (Cc := cnt_u (pc i)). assert (Sa := wsum_le (pa i)). assert (Sc := wsum_le (pc i)).
    assert (Na := cnt_le (pa i)). assert (Nc := cnt_le (pc i)). assert (Dg := diag_ok i).
    assert (W1 := wsum_mono (both i j) (pa i) ltac:(intros x H; apply andb_true_iff in H; tauto)).
    assert (W2 := wsum_mono (swap i j) (pc i) ltac:(intros x H; apply andb_true_iff in H; tauto)).
    assert (N1 := cnt_mono (both i j) (pa i) ltac:(intros x H; apply andb_true_iff in H; tauto)).
    assert (N2 := cnt_mono (swap i j) (pc i) ltac:(intros x H; apply andb_true_iff in H; tauto)).
    assert (W1' := proj1 (wsum_le (both i j))). assert (W2' := proj1 (wsum_le (swap i j))). assert (N1' := proj1 (cnt_le (both i j))). assert (N2' := proj1 (cnt_le (swap i j))).
    assert (Es := strength_wsum i). assert (Ev := valency_cnt i).
    assert (S0 : 0 <= strength i L <= powerRZ 2 241).
    { rewrite Es. split; [lra|]. replace 241%Z with (1 + 240)%Z by reflexivity. rewrite <- pow2_mul. simpl (powerRZ 2 1). lra. }
    set (s := strength i L) in *. set (d := valency i L) in *.
    assert (DU : 0 <= d * u64 <= / 4096) by (rewrite Ev; lra). assert (D0 : 0 <= d) by (rewrite Ev; lra).
    set (q := d * u64 * s) in *. assert (Q : 0 <= q <= / 4096 * s) by (split; [apply Rmult_le_pos|apply Rmult_le_compat_r]; lra).
    assert (US : 0 <= u64 * s <= / 1000000000 * s) by (split; [apply Rmult_le_pos|apply Rmult_le_compat_r]; lra).
    assert (NE : forall p, Forall entry_ok (map neg_entry (filter p its))).
    { intros p. rewrite Forall_forall. intros y Hy. apply in_map_iff in Hy as (x & <- & Hx). apply filter_In in Hx as [Hx _]. destruct (fac_item x Hx) as [[Ff Wf] _].
      destruct (SFopp_exact _ Ff) as [Fo Eo]. split; [exact Fo|]. cbn [neg_entry fst snd]. change (opp (fst (snd x))) with (SFopp (fst (snd x))). rewrite Eo.
      replace (- fval (fst (snd x)) - - wt x) with (- (fval (fst (snd x)) - wt x)) by ring. rewrite Rabs_Ropp. exact Wf. }
    assert (ET : forall p, Rsum (map (fun x : entry => snd (snd x)) (map neg_entry (filter p its))) = 3 * u64 * wsum p).
    { intros p. rewrite map_map. cbn [neg_entry fst snd]. apply Rsum_map_mul. }
    assert (EM : forall p, Rsum (map (fun x : entry => Rabs (fst (snd x)) + snd (snd x)) (map neg_entry (filter p its))) = (1 + 3 * u64) * wsum p).
    { intros p. rewrite map_map. cbn [neg_entry fst snd]. unfold wsum. rewrite <- Rsum_map_mul. f_equal. apply map_ext_in. intros x Hx. apply filter_In in Hx as [Hx _]. apply fac_item in Hx as [_ Hx].
      rewrite Rabs_Ropp, (Rabs_pos_eq (wt x)) by lra. ring. }
    set (t := 402 / 100 * (u64 * s) + 103 / 100 * q) in *. assert (T0 : 0 <= t) by (unfold t; lra).
    set (L3 := if Nat.eqb i j then [(diag64 i, (s, t))] else []).
    assert (H3 : Forall entry_ok L3 /\ 0 <= Rsum (map (fun x : entry => snd (snd x)) L3) <= t /\ 0 <= Rsum (map (fun x : entry => Rabs (fst (snd x)) + snd (snd x)) L3) <= s + t
      /\ 0 <= INR (length L3) <= 1 /\ Rabs (Rsum (map (fun x : entry => fst (snd x)) L3)) <= s /\ 0 <= Rsum (map (fun x : entry => fst (snd x)) L3)).
    { unfold L3. destruct (Nat.eqb i j); cbn [map fst snd length]; rewrite ?Rsum_cons; unfold Rsum; cbn [fold_right INR]; rewrite ?(Rabs_pos_eq s), ?Rplus_0_r, ?Rabs_R0 by lra.
      - split; [constructor; [exact Dg|constructor]|]. rewrite (Rabs_pos_eq s) by lra. lra.
      - split; [constructor|]. lra. }
    destruct H3 as (H3 & T3 & M3 & I3 & V3 & V3').
    assert (EL : lap_entries i j = map neg_entry (filter (both i j) its) ++ map neg_entry (filter (swap i j) its) ++ L3) by reflexivity.
    rewrite EL.
    assert (Ev1 : forall p, Rsum (map (fun x : entry => fst (snd x)) (map neg_entry (filter p its))) = - wsum p).
    { intros p. rewrite map_map. cbn [neg_entry fst snd]. unfold wsum. replace (- Rsum (map (fun x => wt x) (filter p its))) with (-1 * Rsum (map (fun x => wt x) (filter p its))) by ring.
      rewrite <- Rsum_map_mul. f_equal. apply map_ext. intros x. ring. }
    split; [|split; [|apply S0]].
    2:{ unfold evals. rewrite !map_app, !Rsum_app, !Ev1. rewrite (Rabs_pos_eq _ V3') in V3. apply Rabs_le. lra. }
    assert (LN : INR (length (map neg_entry (filter (both i j) its) ++ map neg_entry (filter (swap i j) its) ++ L3)) <= d + 1 /\ 0 <= INR (length (map neg_entry (filter (both i j) its) ++ map neg_entry (filter (swap i j) its) ++ L3))).
    { split; [|apply pos_INR]. rewrite !app_length, !plus_INR, !map_length. unfold cnt in N1, N2, Ev |- *. rewrite Ev. lra. }
    destruct LN as [LN LN0].
    assert (MG : 0 <= emags (map neg_entry (filter (both i j) its) ++ map neg_entry (filter (swap i j) its) ++ L3) <= 201 / 100 * s).
    { unfold emags. rewrite !map_app, !Rsum_app, !EM. assert (u64 * wsum (both i j) + u64 * wsum (swap i j) <= u64 * s) by (rewrite Es; nra).
      assert (0 <= u64 * wsum (both i j)) by (apply Rmult_le_pos; lra). assert (0 <= u64 * wsum (swap i j)) by (apply Rmult_le_pos; lra). unfold t in *. lra. }
    assert (EG : eerrs (map neg_entry (filter (both i j) its) ++ map neg_entry (filter (swap i j) its) ++ L3) <= 3 * (u64 * s) + t).
    { unfold eerrs. rewrite !map_app, !Rsum_app, !ET. assert (u64 * wsum (both i j) + u64 * wsum (swap i j) <= u64 * s) by (rewrite Es; nra). lra. }
    set (E := map neg_entry (filter (both i j) its) ++ map neg_entry (filter (swap i j) its) ++ L3) in *.
    assert (NU : INR (length E) * u64 <= d * u64 + u64) by (replace (d * u64 + u64) with ((d + 1) * u64) by ring; apply Rmult_le_compat_r; lra).
    assert (NU0 : 0 <= INR (length E) * u64) by (apply Rmult_le_pos; lra).
    destruct (sum_signed E) as [F Wt].
    - unfold E. rewrite !Forall_app. split; [apply NE|]. split; [apply NE|exact H3].
    - lra.
    - assert (powerRZ 2 241 <= powerRZ 2 890) by (apply pow2_le; lia).
      assert (E10 : 1024 * powerRZ 2 890 = powerRZ 2 900). { replace 900%Z with (10 + 890)%Z by reflexivity. rewrite <- pow2_mul. simpl (powerRZ 2 10). ring. }
      pose proof (pow2_pos 890). lra.
    - split; [exact F|]. eapply Rle_trans; [exact Wt|].
      assert (K : INR (length E) * u64 * emags E <= (d * u64 + u64) * (201 / 100 * s)) by (apply Rmult_le_compat; lra).
      replace ((d * u64 + u64) * (201 / 100 * s)) with (201 / 100 * q + 201 / 100 * (u64 * s)) in K by (unfold q; ring). unfold t in EG. lra.
  Qed.

  (** *** the two problems *)
  Lemma eqb_ind i j : ind i j = if Nat.eqb i j then 1 else 0. Proof. reflexivity. Qed.
  Lemma eqb_pin k i : nth_error m k = Some i -> Nat.eqb k (pos m mref) = Nat.eqb i mref.
  Proof. intros Hk. rewrite Nat.eqb_sym. rewrite (pos_eqb k i mref Hk Hm). reflexivity. Qed.

  Lemma poisson_ok : (1 < N)%nat -> exists A r, poisson64 b L err m mref A r
    /\ forall spsolve, matsolve_poisson eos_s_t spsolve stp edges g m mref
         = let! phi := np_set_all (repeat nan (length stp)) m (spsolve N A r) in np_set phi mref (lit 0 0).
  Proof.
    intros HN. assert (Hp := pos_lt _ _ Hm). assert (Hr : forall x, In x its -> (pos m (ea x) < N)%nat /\ (pos m (ec x) < N)%nat).
    { intros x Hx. apply its_in in Hx as (Ha & Hc & _). split; apply pos_lt; assumption. }
    destruct (agg64 (fun x : item => pos m (ea x)) prod64 its N (fun x Hx => proj1 (Hr x Hx))) as (out & E1 & L1 & H1).
    destruct (agg64 (fun x : item => pos m (ec x)) prod64 its N (fun x Hx => proj2 (Hr x Hx))) as (inc & E2 & L2 & H2).
    destruct (agg64 (fun x : item => pos m (ea x)) (fun x : item => fst (snd x)) its N (fun x Hx => proj1 (Hr x Hx))) as (fa & E3 & L3 & H3).
    destruct (agg64 (fun x : item => pos m (ec x)) (fun x : item => fst (snd x)) its N (fun x Hx => proj2 (Hr x Hx))) as (fb & E4 & L4 & H4).
    set (rc := map (fun x : item => (pos m (ea x), pos m (ec x))) its ++ map (fun e : nat * nat => (snd e, fst e)) (map (fun x : item => (pos m (ea x), pos m (ec x))) its) ++ map (fun k => (k, k)) (seq 0 N)).
    set (v := map opp (map (fun x : item => fst (snd x)) its) ++ map opp (map (fun x : item => fst (snd x)) its) ++ map2 add fa fb).
    exists (fun i j => if Nat.eqb i (pos m mref) && Nat.eqb j (pos m mref) then add (coo_entry rc v i j) one else coo_entry rc v i j), (map2 sub out inc).
    assert (LD : length (map2 add fa fb) = N) by (rewrite map2_length; lia).
    assert (Edg : forall k i, nth_error m k = Some i -> nth_error (map2 add fa fb) k = Some (diag64 i)).
    { intros k i Hk. assert (Hlt' := nth_error_lt _ _ _ Hk). apply nth_error_map2; [rewrite (H3 k Hlt'), (filter_a k i Hk)|rewrite (H4 k Hlt'), (filter_c k i Hk)]; reflexivity. }
    split.
    - split; [|split].
      + intros k q i j Hk Hq. assert (Hk' := nth_error_lt _ _ _ Hk).
        assert (EC : coo_entry rc v k q = fsum (map fst (lap_entries i j))).
        { set (T := (nat * nat * f64)%type).
          set (l := map (fun x : item => (pos m (ea x), pos m (ec x), opp (fst (snd x))) : T) its ++ map (fun x : item => (pos m (ec x), pos m (ea x), opp (fst (snd x))) : T) its
            ++ map (fun x : nat * f64 => (fst x, fst x, snd x) : T) (combine (seq 0 N) (map2 add fa fb))).
          assert (Er : rc = map (fun x : T => (fst (fst x), snd (fst x))) l).
          { unfold rc, l. rewrite !map_app, !map_map. cbn [fst snd]. do 2 f_equal. rewrite <- (map_map fst (fun k => (k, k))), combine_fst' by (rewrite seq_length; symmetry; exact LD). reflexivity. }
          assert (Ev : v = map (fun x : T => snd x) l).
          { unfold v, l. rewrite !map_app, !map_map. cbn [fst snd]. do 2 f_equal. symmetry. exact (combine_snd' _ _ (eq_trans (seq_length _ _) (eq_sym LD))). }
          rewrite Er, Ev, coo64. f_equal. unfold l. rewrite !filter_app, !map_app. unfold lap_entries. rewrite !map_app, !map_map. cbn [neg_entry fst snd].
          assert (FM : forall {A B} (h : A -> B) p l, filter p (map h l) = map h (filter (fun x => p (h x)) l)).
          { clear. intros A B h p l. induction l as [|x l IH]; [reflexivity|]. cbn [map filter]. destruct (p (h x)); cbn [map]; rewrite IH; reflexivity. }
          rewrite !FM, !map_map. cbn [fst snd]. f_equal; [|f_equal].
          - f_equal. apply filter_ext_in. intros x Hx. apply its_in in Hx as (Ha & Hc & _). rewrite (pos_eqb k i _ Hk Ha), (pos_eqb q j _ Hq Hc). reflexivity.
          - f_equal. apply filter_ext_in. intros x Hx. apply its_in in Hx as (Ha & Hc & _). rewrite (pos_eqb k i _ Hk Hc), (pos_eqb q j _ Hq Ha). reflexivity.
          - rewrite <- LD at 1. rewrite filter_diag. cbn [Nat.leb]. rewrite andb_true_r, Nat.sub_0_r, (Edg k i Hk).
            assert (Eq : Nat.eqb k q = Nat.eqb i j).
            { assert (A1 := pos_inj m k i Hd Hk). assert (A2 := pos_inj m q j Hd Hq). destruct (Nat.eqb_spec i j) as [->|Hn]; [apply Nat.eqb_eq; lia|]. apply Nat.eqb_neq. intros ->. rewrite Hk in Hq. congruence. }
            rewrite Eq. destruct (Nat.eqb i j); reflexivity. }
        rewrite EC, (eqb_pin k i Hk), (eqb_pin q j Hq). destruct (lap_ok i j) as ([F Wt] & M & S1).
        assert (LV := lap_value mref i j). assert (U := u_small). assert (Ev := valency_cnt i). assert (Na := cnt_le (pa i)). assert (Nc := cnt_le (pc i)). assert (S0 := strength_wsum i).
        assert (Sa := wsum_le (pa i)). assert (Sc := wsum_le (pc i)).
        assert (P51 : powerRZ 2 (-51) = 4 * u64) by (rewrite u_val; simpl; lra). rewrite P51.
        set (s := strength i L) in *. set (d := valency i L) in *. assert (s0 : 0 <= s) by lra. assert (d0 : 0 <= d) by lra.
        assert (q0 : 0 <= d * u64 * s) by (apply Rmult_le_pos; [apply Rmult_le_pos|]; lra). assert (us0 : 0 <= u64 * s) by (apply Rmult_le_pos; lra).
        assert (du0 : 0 <= d * u64) by (apply Rmult_le_pos; lra).
        rewrite !eqb_ind in *. destruct (Nat.eqb i mref && Nat.eqb j mref) eqn:EB.
        * apply andb_true_iff in EB as [B1 B2]. rewrite B1, B2 in *. rewrite Rmult_1_r in *. rewrite <- LV.
          set (X := fsum (map fst (lap_entries i j))) in *. set (V := evals (lap_entries i j)) in *.
          assert (DU : d * u64 <= / 4096). { assert (Ca := cnt_u (pa i)). assert (Cc := cnt_u (pc i)). rewrite Ev. lra. }
          assert (Q1 : d * u64 * s <= / 4096 * s) by (apply Rmult_le_compat_r; lra). assert (Q2 : u64 * s <= / 1000000000 * s) by (apply Rmult_le_compat_r; lra).
          assert (XB : Rabs (fval X) <= 102 / 100 * s).
          { replace (fval X) with (V + (fval X - V)) by ring. eapply Rle_trans; [apply Rabs_triang|]. lra. }
          assert (F1 := fl_one). destruct F1 as [F1 V1]. change (lit 1 0 : f64) with (one : f64) in F1, V1.
          assert (XB1 : Rabs (fval X + fval (one : f64)) <= 102 / 100 * s + 1) by (rewrite V1; eapply Rle_trans; [apply Rabs_triang|]; rewrite Rabs_R1; lra).
          destruct (add_rel X one F F1) as [F' E'].
          { eapply Rle_trans; [exact XB1|]. assert (powerRZ 2 241 <= powerRZ 2 890) by (apply pow2_le; lia).
            assert (E10 : 1024 * powerRZ 2 890 = powerRZ 2 900). { replace 900%Z with (10 + 890)%Z by reflexivity. rewrite <- pow2_mul. simpl (powerRZ 2 10). ring. }
            assert (powerRZ 2 900 <= powerRZ 2 1000) by (apply pow2_le; lia). assert (powerRZ 2 10 <= powerRZ 2 890) by (apply pow2_le; lia). simpl (powerRZ 2 10) in *. lra. }
          split; [exact F'|]. replace (fval (add X one) - (V + 1)) with ((fval (add X one) - (fval X + fval (one : f64))) + (fval X - V)) by (rewrite V1; ring).
          eapply Rle_trans; [apply Rabs_triang|].
          assert (K : u64 * Rabs (fval X + fval (one : f64)) <= u64 * (102 / 100 * s + 1)) by (apply Rmult_le_compat_l; lra).
          replace ((d + 3) * (4 * u64) * (s + 1)) with (4 * (d * u64 * s) + 12 * (u64 * s) + 4 * (d * u64) + 12 * u64) by ring. lra.
        * assert (Z : (if Nat.eqb i mref then 1 else 0) * (if Nat.eqb j mref then 1 else 0) = 0) by (destruct (Nat.eqb i mref), (Nat.eqb j mref); try discriminate EB; lra).
          rewrite Z in *. rewrite !Rplus_0_r in *. rewrite <- LV. split; [exact F|]. eapply Rle_trans; [exact Wt|].
          replace ((d + 3) * (4 * u64) * s) with (4 * (d * u64 * s) + 12 * (u64 * s)) by ring. lra.
      + rewrite map2_length; lia.
      + intros k i d Hk Hdk. assert (Hk' := nth_error_lt _ _ _ Hk).
        assert (Ed : d = sub (fsum (map prod64 (filter (pa i) its))) (fsum (map prod64 (filter (pc i) its)))).
        { rewrite (nth_error_map2 sub out inc k (fsum (map prod64 (filter (pa i) its))) (fsum (map prod64 (filter (pc i) its)))) in Hdk; [congruence|..];
            [rewrite (H1 k Hk'), (filter_a k i Hk)|rewrite (H2 k Hk'), (filter_c k i Hk)]; reflexivity. }
        assert (IN : forall x, In x its -> In (fst x, wt x) L) by (intros x Hx; rewrite pairs_inner; apply (in_map (fun x : item => (fst x, snd (snd x)))); exact Hx).
        split.
        * intros vv Hv. rewrite Ed. apply rhs_known; intros x Hx Hpx; apply (Hv (fst x, wt x) (IN x Hx)); unfold ends, ind; cbn [fst snd];
            [unfold pa in Hpx; rewrite Hpx; destruct (Nat.eqb i (ec x)); lra|unfold pc in Hpx; rewrite Hpx; destruct (Nat.eqb i (ea x)); lra].
        * intros (x & Hx & He & Hn). rewrite pairs_inner in Hx. apply in_map_iff in Hx as (y & <- & Hy). cbn [fst snd] in *. unfold ends, ind in He. cbn [fst snd] in He. rewrite Ed.
          destruct (Nat.eqb i (ea y)) eqn:Ea.
          -- rewrite (prod_sum_nan (pa i)); [reflexivity|]. exists y. split; [exact Hy|]. split; [exact Ea|exact Hn].
          -- destruct (Nat.eqb i (ec y)) eqn:Ec; [|exfalso; apply He; ring].
             rewrite (prod_sum_nan (pc i)); [|exists y; split; [exact Hy|]; split; [exact Ec|exact Hn]]. destruct (fsum _); reflexivity.
    - intros spsolve. unfold matsolve_poisson. destruct (Nat.leb_spec N 1) as [HN'|_]; [lia|].
      rewrite helper64. cbn [bind]. cbv iota. rewrite !map_map. cbn [fst snd].
      rewrite E1. cbn [bind]. rewrite E2. cbn [bind]. rewrite np_bin_eq by lia. cbn [bind]. rewrite E3. cbn [bind]. rewrite E4. cbn [bind]. rewrite np_bin_eq by lia. cbn [bind].
      assert (Ei : np_index N (Z.of_nat (pos m mref)) = Ok (pos m mref)).
      { unfold np_index. replace ((- Z.of_nat N <=? Z.of_nat (pos m mref))%Z) with true by (symmetry; apply Z.leb_le; lia).
        replace ((Z.of_nat (pos m mref) <? Z.of_nat N)%Z) with true by (symmetry; apply Z.ltb_lt; lia).
        replace ((Z.of_nat (pos m mref) <? 0)%Z) with false by (symmetry; apply Z.ltb_ge; lia). cbn [andb]. f_equal. lia. }
      rewrite Ei. cbn [bind]. unfold rc, v. rewrite !map_map. cbn [fst snd]. reflexivity.
  Qed.

  Definition scaled64 (A : nat -> nat -> f64) (r : list f64) : Prop :=
    (forall k q x j, nth_error its k = Some x -> nth_error m q = Some j ->
       S_float.within (A k q) (- (wt x * sign_at j (fst x, wt x))) (powerRZ 2 (-50) * wt x * ends j (fst x, wt x)))
    /\ (forall q j, nth_error m q = Some j -> S_float.within (A (length its) q) (ind j mref / 100) (powerRZ 2 (-58) * ind j mref))
    /\ length r = S (length its)
    /\ (forall k x d, nth_error its k = Some x -> nth_error r k = Some d ->
          match err (ea x) (ec x) with
          | Some e => S_float.within d (- (wt x * e)) (wt x * (2 * b + powerRZ 2 (-50) * Rabs e))
          | None => d = nan
          end)
    /\ nth_error r (length its) = Some zero.

  Lemma gradient_ok : (1 < N)%nat -> exists A r, scaled64 A r
    /\ forall lsqr, matsolve_gradient eos_s_t lsqr stp edges g m mref
         = let sol := lsqr (S (length its)) N A r in let! s0 := np_get sol (pos m mref) in np_set_all (repeat nan (length stp)) m (map (fun x => sub x s0) sol).
  Proof.
    intros HN. assert (Hp := pos_lt _ _ Hm). assert (U := u_small). assert (P50 : powerRZ 2 (-50) = 8 * u64) by (rewrite u_val; simpl; lra).
    set (cp := (lit 1 (-2) : f64)).
    set (r := map opp (map prod64 its) ++ [lit 0 0]).
    set (ab := map (fun x : item => (pos m (ea x), pos m (ec x))) its).
    set (A := coo_entry (combine (seq 0 (length ab) ++ seq 0 (length ab) ++ [length ab]) (map fst ab ++ map snd ab ++ [pos m mref])) (map opp (map (fun x : item => fst (snd x)) its) ++ map (fun x : item => fst (snd x)) its ++ [cp])).
    assert (EA : forall k q j, nth_error m q = Some j -> A k q = fsum (match nth_error its k with Some x => (if Nat.eqb j (ea x) then [opp (fst (snd x))] else []) ++ (if Nat.eqb j (ec x) then [fst (snd x)] else []) | None => [] end
         ++ if Nat.eqb (length its) k && Nat.eqb j mref then [cp] else [])).
    { intros k q j Hq. unfold A.
      set (T := (nat * nat * f64)%type).
      set (l := map (fun y : nat * item => (fst y, pos m (ea (snd y)), opp (fst (snd (snd y)))) : T) (combine (seq 0 (length its)) its)
        ++ map (fun y : nat * item => (fst y, pos m (ec (snd y)), fst (snd (snd y))) : T) (combine (seq 0 (length its)) its) ++ [(length its, pos m mref, cp) : T]).
      assert (Lab : length ab = length its) by (unfold ab; apply map_length).
      assert (CS : forall (h : item -> nat), combine (seq 0 (length its)) (map h its) = map (fun y : nat * item => (fst y, h (snd y))) (combine (seq 0 (length its)) its)).
      { intros h. clear. generalize its. intros l. generalize 0%nat. induction l as [|x l IH]; intros s; [reflexivity|]. cbn [length seq map combine fst snd]. rewrite IH. reflexivity. }
      assert (MS : forall (h : item -> f64), map h its = map (fun y : nat * item => h (snd y)) (combine (seq 0 (length its)) its)).
      { intros h. clear. generalize its. intros l. generalize 0%nat. induction l as [|x l IH]; intros s; [reflexivity|]. cbn [length seq map combine snd]. rewrite (IH (S s)). reflexivity. }
      assert (E1 : combine (seq 0 (length ab) ++ seq 0 (length ab) ++ [length ab]) (map fst ab ++ map snd ab ++ [pos m mref]) = map (fun x : T => (fst (fst x), snd (fst x))) l).
      { rewrite Lab. unfold ab. rewrite !map_map. cbn [fst snd]. rewrite !combine_app' by (rewrite seq_length, map_length; reflexivity). rewrite !CS. unfold l. rewrite !map_app, !map_map. reflexivity. }
      assert (E2 : map opp (map (fun x : item => fst (snd x)) its) ++ map (fun x : item => fst (snd x)) its ++ [cp] = map (fun x : T => snd x) l).
      { rewrite map_map. rewrite (MS (fun x => opp (fst (snd x)))), (MS (fun x => fst (snd x))). unfold l. rewrite !map_app, !map_map. reflexivity. }
      rewrite E1, E2, coo64. f_equal. unfold l. rewrite !filter_app, !map_app, !filter_map', !map_map. cbn [fst snd].
      rewrite (filter_row (fun x : item => Nat.eqb (pos m (ea x)) q)), (filter_row (fun x : item => Nat.eqb (pos m (ec x)) q)). cbn [Nat.leb]. rewrite Nat.sub_0_r, app_assoc. f_equal.
      - destruct (nth_error its k) as [x|] eqn:Ek; [|reflexivity]. assert (Hx := its_in x (nth_error_In _ _ Ek)). destruct Hx as (Ha & Hc & _).
        rewrite (pos_eqb q j _ Hq Ha), (pos_eqb q j _ Hq Hc). destruct (Nat.eqb j (ea x)), (Nat.eqb j (ec x)); reflexivity.
      - cbn [filter fst snd]. rewrite (pos_eqb q j _ Hq Hm). destruct (Nat.eqb (length its) k && Nat.eqb j mref); reflexivity. }
    exists A, r. split; [split; [|split; [|split; [|split]]]|].
    - intros k q x j Hk Hq. rewrite (EA k q j Hq), Hk. assert (Hk' := nth_error_lt _ _ _ Hk).
      replace (Nat.eqb (length its) k) with false by (symmetry; apply Nat.eqb_neq; lia). cbn [andb]. rewrite app_nil_r.
      assert (Hx := nth_error_In _ _ Hk). destruct (fac_item x Hx) as [[Ff Wf] [W0 W1]]. destruct (SFopp_exact _ Ff) as [Fo Eo].
      set (l := (if Nat.eqb j (ea x) then [neg_entry x] else []) ++ (if Nat.eqb j (ec x) then [fac_entry x] else [])).
      assert (Ef : (if Nat.eqb j (ea x) then [opp (fst (snd x))] else []) ++ (if Nat.eqb j (ec x) then [fst (snd x)] else []) = map fst l).
      { unfold l. rewrite map_app. destruct (Nat.eqb j (ea x)), (Nat.eqb j (ec x)); reflexivity. }
      rewrite Ef. unfold sign_at, ends, ind. cbn [fst snd].
      assert (N1 : entry_ok (neg_entry x)).
      { split; [exact Fo|]. cbn [neg_entry fst snd]. change (opp (fst (snd x))) with (SFopp (fst (snd x))). rewrite Eo. replace (- fval (fst (snd x)) - - wt x) with (- (fval (fst (snd x)) - wt x)) by ring. rewrite Rabs_Ropp. exact Wf. }
      assert (N2 : entry_ok (fac_entry x)) by (split; [exact Ff|exact Wf]).
      assert (UW : 0 <= u64 * wt x <= / 1000000000 * wt x) by (split; [apply Rmult_le_pos|apply Rmult_le_compat_r]; lra).
      assert (UUW : 0 <= u64 * (u64 * wt x) <= / 1000000000 * (u64 * wt x)) by (split; [apply Rmult_le_pos|apply Rmult_le_compat_r]; lra).
      assert (B900 : 8 * powerRZ 2 200 <= powerRZ 2 900) by (replace 8 with (powerRZ 2 3) by (simpl; lra); rewrite pow2_mul; apply pow2_le; lia).
      destruct (sum_signed l) as [F Ws].
      + unfold l. apply Forall_app. split; [destruct (Nat.eqb j (ea x))|destruct (Nat.eqb j (ec x))]; constructor; try exact N1; try exact N2; constructor.
      + assert (INR (length l) <= 2). { replace 2 with (INR 2) by (simpl; lra). apply le_INR. unfold l. rewrite app_length. destruct (Nat.eqb j (ea x)), (Nat.eqb j (ec x)); cbn [length]; lia. }
        assert (INR (length l) * u64 <= 2 * u64) by (apply Rmult_le_compat_r; lra). lra.
      + unfold emags, l. destruct (Nat.eqb j (ea x)), (Nat.eqb j (ec x)); cbn [app map neg_entry fac_entry fst snd]; rewrite ?Rsum_cons; unfold Rsum; cbn [fold_right];
          rewrite ?Rabs_Ropp, ?(Rabs_pos_eq (wt x)) by lra; lra.
      + split; [exact F|]. rewrite P50. unfold emags, evals, eerrs in Ws. revert Ws. generalize (fval (fsum (map fst l))). intros z Ws.
        unfold l in Ws. destruct (Nat.eqb j (ea x)), (Nat.eqb j (ec x)); cbn [app map neg_entry fac_entry fst snd length INR] in Ws; rewrite ?Rsum_cons in Ws; unfold Rsum in Ws; cbn [fold_right] in Ws;
          rewrite ?Rabs_Ropp, ?(Rabs_pos_eq (wt x)) in Ws by lra.
        * replace (z - - (wt x * (1 - 1))) with (z - (- wt x + (wt x + 0))) by ring. eapply Rle_trans; [exact Ws|]. lra.
        * replace (z - - (wt x * (1 - 0))) with (z - (- wt x + 0)) by ring. eapply Rle_trans; [exact Ws|]. lra.
        * replace (z - - (wt x * (0 - 1))) with (z - (wt x + 0)) by ring. eapply Rle_trans; [exact Ws|]. lra.
        * replace (z - - (wt x * (0 - 0))) with (z - 0) by ring. eapply Rle_trans; [exact Ws|]. lra.
    - intros q j Hq. rewrite (EA (length its) q j Hq). rewrite (proj2 (nth_error_None its (length its))) by lia. rewrite Nat.eqb_refl. cbn [andb app]. unfold ind.
      destruct (Nat.eqb j mref).
      + destruct (sf_lit_near 1 (-2)) as [Fc Ec].
        { unfold Rlit. simpl. unfold big64. assert (powerRZ 2 0 <= powerRZ 2 1000) by (apply pow2_le; lia). simpl (powerRZ 2 0) in H. rewrite Rabs_pos_eq by lra. lra. }
        change (sf_lit 1 (-2)) with cp in Fc, Ec.
        assert (ER : Rlit 1 (-2) = / 100) by (unfold Rlit; simpl; lra). rewrite ER in Ec. rewrite (Rabs_pos_eq (/ 100)) in Ec by lra.
        assert (ET : eta64 <= u64 / 1000000). { unfold eta64. assert (powerRZ 2 (-1075) <= powerRZ 2 (-100)) by (apply pow2_le; lia). assert (powerRZ 2 (-100) <= u64 / 1000000) by (rewrite u_val; simpl; lra). lra. }
        destruct (sum_signed [(cp, (/ 100, u64 * / 100 + eta64))]) as [F Ws].
        * constructor; [split; [exact Fc|exact Ec]|constructor].
        * cbn [length INR]. lra.
        * unfold emags. cbn [map fst snd]. rewrite Rsum_cons. unfold Rsum. cbn [fold_right]. rewrite (Rabs_pos_eq (/ 100)) by lra. assert (powerRZ 2 0 <= powerRZ 2 900) by (apply pow2_le; lia). simpl (powerRZ 2 0) in H. lra.
        * split; [exact F|]. cbn [map fst] in Ws. unfold emags, evals, eerrs in Ws. cbn [map fst snd length INR] in Ws. rewrite !Rsum_cons in Ws. unfold Rsum in Ws. cbn [fold_right] in Ws. rewrite (Rabs_pos_eq (/ 100)) in Ws by lra.
          change (fsum [cp]) with (fsum (F := f64) [cp]). set (z := fval (fsum [cp])) in *. replace (z - 1 / 100) with (z - (/ 100 + 0)) by lra. eapply Rle_trans; [exact Ws|].
          assert (u64 * (u64 * / 100 + eta64) <= u64 / 1000000) by nra. assert (E58 : powerRZ 2 (-58) = u64 / 32) by (rewrite u_val; simpl; lra). rewrite E58. lra.
      + split; [exact I|]. unfold fsum. cbn [fold_left]. change (fval (zero : f64)) with 0. replace (0 - 0 / 100) with 0 by lra. rewrite Rabs_R0. lra.
    - unfold r. rewrite app_length, !map_length. cbn [length]. lia.
    - intros k x d Hk Hdk. assert (Hx := nth_error_In _ _ Hk). unfold r in Hdk. rewrite nth_error_app1 in Hdk by (rewrite !map_length; exact (nth_error_lt _ _ _ Hk)).
      rewrite map_map, nth_error_map, Hk in Hdk. cbn [option_map] in Hdk. assert (Ed : d = opp (prod64 x)) by congruence. clear Hdk. rewrite Ed.
      destruct (err (ea x) (ec x)) as [e|] eqn:Ee.
      + destruct (prod_item x e Hx Ee) as [F Wp]. destruct (SFopp_exact _ F) as [Fo Eo]. split; [exact Fo|]. change (opp (prod64 x)) with (SFopp (prod64 x)). rewrite Eo.
        replace (- fval (prod64 x) - - (wt x * e)) with (- (fval (prod64 x) - wt x * e)) by ring. rewrite Rabs_Ropp. eapply Rle_trans; [exact Wp|]. rewrite P50.
        destruct (fac_item x Hx) as [_ [W0 W1]]. assert (B0 : 0 < b) by (pose proof (pow2_pos (-100)); lra). assert (0 <= wt x * b) by (apply Rmult_le_pos; lra).
        assert (0 <= u64 * (wt x * Rabs e)) by (apply Rmult_le_pos; [lra|apply Rmult_le_pos; [lra|apply Rabs_pos]]). lra.
      + assert (H' := its_in x Hx). destruct H' as (Ha & Hc & _). destruct (eps64_ok _ _ Ha Hc) as [_ G]. rewrite Ee in G. cbn [error_holds] in G. unfold prod64. rewrite G. destruct unit_scalar; reflexivity.
    - unfold r. rewrite nth_error_app2 by (rewrite !map_length; lia). rewrite !map_length, Nat.sub_diag. reflexivity.
    - intros lsqr. unfold matsolve_gradient. destruct (Nat.leb_spec N 1) as [HN'|_]; [lia|].
      rewrite helper64. cbn [bind]. cbv iota.
      replace ((Z.of_nat (pos m mref) <? 0)%Z) with false by (symmetry; apply Z.ltb_ge; lia). cbv zeta. rewrite Nat2Z.id. fold ab. unfold A, r.
      assert (Lab : length ab = length its) by (unfold ab; apply map_length). rewrite Lab. reflexivity.
  Qed.
End System.
