(** * Interval bounds for polynomial tables, computed in fixed point *)
From Coq Require Import ZArith Reals Lra Lia List Bool.
From Verif Require Import Num Res S_eos P_eos.
Import ListNotations.
Open Scope R_scope.

(** x lies in the interval [a, b] counted in units of 10^-24 *)
Definition scale : Z := (10 ^ 24)%Z.
Definition itv : Type := (Z * Z)%type.
Definition inI (I : itv) (x : R) : Prop := IZR (fst I) <= x * IZR scale <= IZR (snd I).

Lemma scale_pos : 0 < IZR scale.
Proof. apply IZR_lt. reflexivity. Qed.

Definition up_div (a b : Z) : Z := (- ((- a) / b))%Z.

Lemma div_floor : forall a b, (0 < b)%Z -> IZR (a / b) * IZR b <= IZR a.
Proof.
  intros a b Hb. rewrite <- mult_IZR. apply IZR_le. rewrite Z.mul_comm. apply Z.mul_div_le. exact Hb.
Qed.

Lemma div_ceil : forall a b, (0 < b)%Z -> IZR a <= IZR (up_div a b) * IZR b.
Proof.
  intros a b Hb. unfold up_div. pose proof (div_floor (- a) b Hb) as H.
  rewrite opp_IZR in *. lra.
Qed.

Definition iadd (I J : itv) : itv := (fst I + fst J, snd I + snd J)%Z.
Definition imul (I J : itv) : itv :=
  let '(a, b) := I in let '(c, d) := J in
  let p := (a * c)%Z in let q := (a * d)%Z in let r := (b * c)%Z in let s := (b * d)%Z in
  (Z.min (Z.min p q) (Z.min r s) / scale,
   up_div (Z.max (Z.max p q) (Z.max r s)) scale)%Z.

Lemma iadd_ok : forall I J x y, inI I x -> inI J y -> inI (iadd I J) (x + y).
Proof.
  intros [a b] [c d] x y [H1 H2] [H3 H4]. unfold inI, iadd in *. cbn [fst snd] in *.
  rewrite !plus_IZR. lra.
Qed.

Lemma mul_bound : forall a b c d x y, a <= x <= b -> c <= y <= d ->
  (a * c <= x * y \/ a * d <= x * y \/ b * c <= x * y \/ b * d <= x * y) /\
  (x * y <= a * c \/ x * y <= a * d \/ x * y <= b * c \/ x * y <= b * d).
Proof.
  intros a b c d x y Hx Hy. split.
  - destruct (Rle_dec 0 y) as [Hy0|Hy0].
    + assert (a * y <= x * y) by nra.
      destruct (Rle_dec 0 a); [left; nra|right; left; nra].
    + assert (b * y <= x * y) by nra.
      destruct (Rle_dec 0 b); [right; right; left; nra|right; right; right; nra].
  - destruct (Rle_dec 0 y) as [Hy0|Hy0].
    + assert (x * y <= b * y) by nra.
      destruct (Rle_dec 0 b); [right; right; right; nra|right; right; left; nra].
    + assert (x * y <= a * y) by nra.
      destruct (Rle_dec 0 a); [right; left; nra|left; nra].
Qed.

Lemma imul_ok : forall I J x y, inI I x -> inI J y -> inI (imul I J) (x * y).
Proof.
  intros [a b] [c d] x y Hx Hy. unfold inI, imul in *. cbn [fst snd] in *.
  pose proof scale_pos as Hs.
  destruct (mul_bound _ _ _ _ _ _ Hx Hy) as [Hl Hu]. rewrite <- !mult_IZR in Hl, Hu.
  set (p := (a * c)%Z) in *. set (q := (a * d)%Z) in *.
  set (r := (b * c)%Z) in *. set (s := (b * d)%Z) in *.
  set (m := Z.min (Z.min p q) (Z.min r s)). set (M := Z.max (Z.max p q) (Z.max r s)).
  assert (Hm : IZR m <= IZR p /\ IZR m <= IZR q /\ IZR m <= IZR r /\ IZR m <= IZR s).
  { repeat split; apply IZR_le; unfold m; lia. }
  assert (HM : IZR p <= IZR M /\ IZR q <= IZR M /\ IZR r <= IZR M /\ IZR s <= IZR M).
  { repeat split; apply IZR_le; unfold M; lia. }
  pose proof (div_floor m scale eq_refl) as H1. pose proof (div_ceil M scale eq_refl) as H2.
  assert (H3 : IZR m <= (x * y * IZR scale) * IZR scale) by nra.
  assert (H4 : (x * y * IZR scale) * IZR scale <= IZR M) by nra.
  split; apply (Rmult_le_reg_r (IZR scale)); lra.
Qed.

(** decimal coefficients *)
Definition idec (m e : Z) : itv :=
  if (0 <=? e + 24)%Z then (m * 10 ^ (e + 24), m * 10 ^ (e + 24))%Z
  else (m / 10 ^ (- (e + 24)), up_div m (10 ^ (- (e + 24))))%Z.

Lemma powerRZ_Z : forall n, (0 <= n)%Z -> powerRZ 10 n = IZR (10 ^ n).
Proof.
  intros n Hn. destruct n as [|n|n]; [reflexivity| |lia]. cbn [powerRZ].
  rewrite (pow_IZR 10 (Pos.to_nat n)), positive_nat_Z. reflexivity.
Qed.

Lemma idec_ok : forall m e, inI (idec m e) (dec m e).
Proof.
  intros m e. unfold inI, idec, dec.
  assert (H24 : IZR scale = powerRZ 10 24) by (symmetry; apply (powerRZ_Z 24); lia).
  rewrite Rmult_assoc, H24, <- powerRZ_add by lra.
  destruct (0 <=? e + 24)%Z eqn:E.
  - apply Z.leb_le in E. cbn [fst snd]. rewrite mult_IZR, <- powerRZ_Z by exact E. lra.
  - apply Z.leb_gt in E. cbn [fst snd].
    set (k := (- (e + 24))%Z). replace (e + 24)%Z with (- k)%Z by lia.
    assert (Hk : (0 < 10 ^ k)%Z) by (apply Z.pow_pos_nonneg; lia).
    assert (Hi : powerRZ 10 (- k) * IZR (10 ^ k) = 1).
    { rewrite <- powerRZ_Z by lia. rewrite <- powerRZ_add by lra.
      replace (- k + k)%Z with 0%Z by lia. reflexivity. }
    pose proof (div_floor m _ Hk) as H1. pose proof (div_ceil m _ Hk) as H2.
    assert (Hk' : 0 < IZR (10 ^ k)) by (apply IZR_lt; exact Hk).
    split; apply (Rmult_le_reg_r (IZR (10 ^ k))); try exact Hk';
      rewrite Rmult_assoc, Hi; lra.
Qed.

(** nested (Horner) form of a table *)
Fixpoint horner {A V} (ad mu : V -> V -> V) (zero : V) (ev : A -> V) (x : V) (l : list A) : V :=
  match l with
  | [] => zero
  | c :: r => ad (ev c) (mu x (horner ad mu zero ev x r))
  end.

Definition coeffs : Type := list (list (list (Z * Z))).
Definition rhorner (l : coeffs) (x y z : R) : R :=
  horner Rplus Rmult 0 (horner Rplus Rmult 0 (horner Rplus Rmult 0 (fun me => dec (fst me) (snd me)) x) y) z l.
Definition ihorner (l : coeffs) (X Y Z : itv) : itv :=
  horner iadd imul (0, 0)%Z
    (horner iadd imul (0, 0)%Z
       (horner iadd imul (0, 0)%Z (fun me => idec (fst me) (snd me)) X) Y) Z l.

Lemma horner_ok : forall A (ev : A -> R) (iv : A -> itv) x X l, inI X x ->
  (forall a, In a l -> inI (iv a) (ev a)) ->
  inI (horner iadd imul (0, 0)%Z iv X l) (horner Rplus Rmult 0 ev x l).
Proof.
  intros A ev iv x X l Hx. induction l as [|a l IH]; intros Hev; cbn [horner].
  - unfold inI. change (0 <= 0 * IZR scale <= 0). lra.
  - apply iadd_ok; [apply Hev; left; reflexivity|].
    apply imul_ok; [exact Hx|]. apply IH. intros b Hb. apply Hev. right. exact Hb.
Qed.

Lemma ihorner_ok : forall l X Y Z x y z, inI X x -> inI Y y -> inI Z z ->
  inI (ihorner l X Y Z) (rhorner l x y z).
Proof.
  intros l X Y Z x y z Hx Hy Hz. apply horner_ok; [exact Hz|]. intros a _.
  apply horner_ok; [exact Hy|]. intros b _.
  apply horner_ok; [exact Hx|]. intros [m e] _. apply idec_ok.
Qed.

Lemma in_pos : forall I x, inI I x -> (0 <? fst I)%Z = true -> 0 < x.
Proof.
  intros I x [H _] Hb. apply Z.ltb_lt, IZR_lt in Hb. pose proof scale_pos.
  apply (Rmult_lt_reg_r (IZR scale)); lra.
Qed.

Lemma in_neg : forall I x, inI I x -> (snd I <? 0)%Z = true -> x < 0.
Proof.
  intros I x [_ H] Hb. apply Z.ltb_lt, IZR_lt in Hb. pose proof scale_pos.
  apply (Rmult_lt_reg_r (IZR scale)); lra.
Qed.

(** ** Subdivision *)
Fixpoint pieces (a w : Z) (n : nat) : list itv :=
  match n with
  | O => []
  | S n' => (a, (a + w)%Z) :: pieces (a + w) w n'
  end.

Lemma pieces_ok : forall n a w x, (0 < n)%nat ->
  inI (a, a + Z.of_nat n * w)%Z x -> exists I, In I (pieces a w n) /\ inI I x.
Proof.
  induction n as [|n IH]; intros a w x Hn Hx; [lia|].
  cbn [pieces]. unfold inI in Hx. cbn [fst snd] in Hx.
  destruct (Rle_dec (x * IZR scale) (IZR (a + w))) as [Hl|Hg].
  { exists (a, a + w)%Z. split; [left; reflexivity|]. unfold inI. cbn [fst snd]. lra. }
  destruct n as [|n].
  { exfalso. replace (a + Z.of_nat 1 * w)%Z with (a + w)%Z in Hx by lia. lra. }
  destruct (IH (a + w)%Z w x ltac:(lia)) as (I & HI & Hi).
  { unfold inI. cbn [fst snd]. split; [lra|].
    replace (a + w + Z.of_nat (S n) * w)%Z with (a + Z.of_nat (S (S n)) * w)%Z by lia. apply Hx. }
  exists I. split; [right; exact HI|exact Hi].
Qed.

(** check a bound on every box *)
Definition on_boxes (ck : itv -> itv -> itv -> bool) (X Y Z : list itv) : bool :=
  forallb (fun I => forallb (fun J => forallb (fun K => ck I J K) Z) Y) X.

Lemma on_boxes_ok : forall ck X Y Z, on_boxes ck X Y Z = true ->
  forall I J K, In I X -> In J Y -> In K Z -> ck I J K = true.
Proof.
  intros ck X Y Z H I J K HI HJ HK. unfold on_boxes in H.
  rewrite forallb_forall in H. specialize (H I HI).
  rewrite forallb_forall in H. specialize (H J HJ).
  rewrite forallb_forall in H. exact (H K HK).
Qed.
