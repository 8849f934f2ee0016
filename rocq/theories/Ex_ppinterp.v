(** * Witnesses for the interpolation properties *)
From Coq Require Import ZArith Bool Reals Lra Lia List SpecFloat.
From Verif Require Import Num XR SF Res Arr XRlemmas M_ppinterp S_interp P_ppinterp P_coeffs NumLaws P_interp2.
Import ListNotations.
Local Open Scope R_scope.

(** a cast with NaN above and below three valid points *)
Definition exX : list xr := [NaN; Fin 0; Fin 1; Fin 3; NaN].
Definition exY : list xr := [NaN; Fin 5; Fin 6; Fin 4; Fin 7].
Definition exxs (i : nat) : R := match i with 1%nat => 0 | 2%nat => 1 | _ => 3 end.
Definition exys (i : nat) : R := match i with 1%nat => 5 | 2%nat => 6 | _ => 4 end.

Lemma ex_block : block exX exY 1 4 exxs exys.
Proof.
  constructor; try reflexivity; simpl; try lia.
  - intros i Hi. destruct i as [|[|[|[|i]]]]; try lia; reflexivity.
  - intros i Hi. destruct i as [|[|[|[|i]]]]; try lia; reflexivity.
  - intros i Hi1 Hi2. destruct i as [|[|[|i]]]; try lia; simpl; lra.
  - intros i Hi. destruct i; [|lia]. left. reflexivity.
  - intros _. left. reflexivity.
Qed.

(** the documentation of valid_range_1: "If X[i] is NaN for all i > k, then K = len(X)" *)
Lemma valid_range_doc :
  exists (X : list f64) k K, valid_range_1 X = Ok (k, K)
    /\ (forall i, (k < i < length X)%nat -> isnan (nth i X nan) = true)
    /\ (k < length X)%nat /\ K <> length X.
Proof.
  exists [lit 1 0; nan; nan], 0%nat, 1%nat. repeat split; try (simpl; lia); try discriminate.
  intros i Hi. destruct i as [|[|[|i]]]; simpl in *; try lia; reflexivity.
Qed.

(** an infinity just above the valid block: the on-the-fly PCHIP sees different
    neighbours than the precomputed one *)
Definition infX : list f64 := [lit 0 0; lit 1 0; lit 2 0; lit 3 0].
Definition infY : list f64 := [ninf; lit 5 0; lit 6 0; lit 4 0].

Lemma pchip_same_inf :
  exists (X Y : list f64) (x : f64) C a b,
    length X = length Y /\ pchip_coeffs_1 nan X Y = Ok C
    /\ pchip_interp_1 x X Y 0 = Ok a /\ ppval_1 x X C 0 = Ok b
    /\ eqb a b = false.
Proof.
  eexists infX, infY, (lit 15 (-1)), _, _, _.
  split; [reflexivity|]. split; [vm_compute; reflexivity|].
  split; [vm_compute; reflexivity|]. split; [vm_compute; reflexivity|]. vm_compute. reflexivity.
Qed.
