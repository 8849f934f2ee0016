(** * The synthetic ocean: concrete cases in binary64 *)
From Coq Require Import ZArith Bool Reals Lra Lia List.
From Verif Require Import Num XR SF Res Arr Nd M_synthocean P_synthocean P_synthocean2.
Import ListNotations.

Definition q (z : Z) : f64 := lit z 0.

Lemma no_wall : exists S T P, synthocean 2 1 2 (q 4000) (q 0) true true true = Ok (S, T, P)
    /\ S = mk_nd [2; 1; 2]%nat (elems S) /\ forallb (fun v => negb (isnan v)) (elems S) = true /\ T = mk_nd [2; 1; 2]%nat [nan; nan; nan; nan].
Proof.
  destruct (synthocean 2 1 2 (q 4000) (q 0) true true true) as [[[S T] P]|] eqn:E; vm_compute in E; [|discriminate].
  exists S, T, P. split; [reflexivity|]. injection E as <- <- <-. vm_compute. auto.
Qed.

Lemma bottom : exists S T, synthocean 2 2 1 (q 4000) (q 0) false true true = Ok (S, T, [q 0]).
Proof.
  destruct (synthocean 2 2 1 (q 4000) (q 0) false true true) as [[[S T] P]|] eqn:E; vm_compute in E; [|discriminate].
  exists S, T. injection E as <- <- <-. vm_compute. reflexivity.
Qed.

Lemma accepted ni nj nk pbot a zonally_uniform wrap0 wrap1 :
  ((0 < ni /\ 0 < nj /\ 0 <= nk)%Z <-> is_ok (synthocean ni nj nk (Fin pbot) (Fin a) zonally_uniform wrap0 wrap1) = true)
  /\ (~ (0 < ni /\ 0 < nj /\ 0 <= nk)%Z -> synthocean ni nj nk (Fin pbot) (Fin a) zonally_uniform wrap0 wrap1 = Err ValueError).
Proof.
  assert (B : ~ (0 < ni /\ 0 < nj /\ 0 <= nk)%Z -> synthocean ni nj nk (Fin pbot) (Fin a) zonally_uniform wrap0 wrap1 = Err ValueError).
  { intros H. apply bad_shape. lia. }
  split; [|exact B]. split.
  - intros (A1 & A2 & A3). destruct (whole (Z.to_nat ni) (Z.to_nat nj) (Z.to_nat nk) pbot a zonally_uniform wrap0 wrap1 ltac:(lia) ltac:(lia)) as (S & T & P & lo & hi & E & _).
    rewrite !Z2Nat.id in E by lia. rewrite E. reflexivity.
  - intros H. destruct (Z_lt_dec 0 ni); [|rewrite B in H by lia; discriminate]. destruct (Z_lt_dec 0 nj); [|rewrite B in H by lia; discriminate].
    destruct (Z_le_dec 0 nk); [lia|rewrite B in H by lia; discriminate].
Qed.
