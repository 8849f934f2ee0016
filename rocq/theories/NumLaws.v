(** * The floating point laws used by P_coeffs hold in binary64 and in [xr] *)
From Coq Require Import ZArith Bool Lia List Reals SpecFloat.
From Verif Require Import Num XR SF P_coeffs.

Lemma sf_add_comm (x y : f64) : sf_add x y = sf_add y x.
Proof.
  unfold sf_add, SFadd.
  destruct x as [sx|sx| |sx mx ex], y as [sy|sy| |sy my ey]; try reflexivity.
  - destruct sx, sy; reflexivity.
  - destruct sx, sy; reflexivity.
  - rewrite (Z.min_comm ey ex). rewrite Z.add_comm. reflexivity.
Qed.

Lemma shr_1_nonneg s : (0 <= shr_m s)%Z -> (0 <= shr_m (shr_1 s))%Z.
Proof.
  destruct s as [m r st]. unfold shr_1. cbn [shr_m]. intros H.
  destruct m as [|[p|p|]|[p|p|]]; cbn [shr_m]; lia.
Qed.

Lemma iter_pos_inv {A} (P : A -> Prop) (f : A -> A) : (forall x, P x -> P (f x)) ->
  forall p x, P x -> P (iter_pos f p x).
Proof. intros Hf p. induction p; intros x Hx; simpl; auto. Qed.

Lemma shr_nonneg s e n : (0 <= shr_m s)%Z -> (0 <= shr_m (fst (shr s e n)))%Z.
Proof.
  intros H. unfold shr. destruct n; simpl; auto.
  apply (iter_pos_inv (fun s => (0 <= shr_m s)%Z)); auto. apply shr_1_nonneg.
Qed.

Lemma shr_fexp_nonneg m e l : (0 <= m)%Z -> (0 <= shr_m (fst (shr_fexp 53 1024 m e l)))%Z.
Proof.
  intros H. unfold shr_fexp. apply shr_nonneg. destruct l as [|[]]; simpl; assumption.
Qed.

Lemma binary_round_aux_num sx mx ex lx : (0 <= mx)%Z ->
  sf_isnan (binary_round_aux 53 1024 sx mx ex lx) = false.
Proof.
  intros H. unfold binary_round_aux.
  pose proof (shr_fexp_nonneg mx ex lx H) as H1.
  destruct (shr_fexp 53 1024 mx ex lx) as [s e]. cbn [fst] in H1.
  assert (H2 : (0 <= round_nearest_even (shr_m s) (loc_of_shr_record s))%Z).
  { unfold round_nearest_even. destruct (loc_of_shr_record s) as [|[]]; try lia.
    destruct (Z.even (shr_m s)); lia. }
  pose proof (shr_fexp_nonneg _ e loc_Exact H2) as H3.
  destruct (shr_fexp 53 1024 (round_nearest_even (shr_m s) (loc_of_shr_record s)) e loc_Exact) as [s' e'].
  cbn [fst] in H3. destruct (shr_m s'); [reflexivity| |lia].
  destruct (e' <=? 1024 - 53)%Z; reflexivity.
Qed.

Lemma binary_normalize_num m e s : sf_isnan (binary_normalize 53 1024 m e s) = false.
Proof.
  unfold binary_normalize, binary_round. destruct m as [|p|p]; [reflexivity| |];
  destruct (shl_align p e (fexp 53 1024 (Z.pos (digits2_pos p) + e))) as [mz ez];
  apply binary_round_aux_num; lia.
Qed.

#[export] Instance sfLaws : NumLaws f64.
Proof.
  constructor.
  - exact sf_add_comm.
  - intros x y Hx Hy.
    destruct x as [sx|sx| |sx mx ex], y as [sy|sy| |sy my ey]; try discriminate; try reflexivity.
    + destruct sx, sy; reflexivity.
    + apply binary_normalize_num.
Qed.

#[export] Instance xrLaws : NumLaws xr.
Proof.
  constructor.
  - intros [x| | |] [y| | |]; simpl; try reflexivity. f_equal. apply Rplus_comm.
  - intros [x| | |] [y| | |]; simpl; intros; try discriminate; reflexivity.
Qed.
