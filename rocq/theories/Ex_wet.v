(** * Witness for the totality of the wetting searches *)
From Coq Require Import ZArith Reals List Lia Lra Bool.
From Verif Require Import Num XR Res Arr S_graph S_wet S_interp S_traj P_wet_exact Ex_ppinterp Ex_traj.
Import ListNotations.

Lemma two_csr : csr 2 [0; 1; 2] [1; 0].
Proof.
  split; [reflexivity|].
  intros m n _ (a & b & i & _ & _ & _ & H4).
  destruct i as [|[|i]]; simpl in H4; [injection H4 as <-; lia|injection H4 as <-; lia|destruct i; discriminate].
Qed.

Lemma wet_total_witness :
  csr 2 [0; 1; 2] [1; 0] /\ (forall c, In c [(exY, exT, exX); (exY, exT, exX)] -> any_cast c /\ cast_in exD c /\ enough_fuel 13 1 c)
  /\ (forall n b, wet_at [(Fin 5, Fin 2, Fin 0); (NaN, NaN, NaN)] n ->
        nth_error [(Fin 5, Fin 2, Fin 0); (NaN, NaN, NaN)] n = Some b -> bottle_in exD b).
Proof.
  split; [exact two_csr|]. split.
  - intros c Hc. assert (c = (exY, exT, exX)) as -> by (simpl in Hc; intuition). split; [exact ex_any_cast|]. split; [exact ex_cast_in|exact ex_enough_fuel].
  - intros [|[|[|n]]] b (s & t & p & H1 & H2) Hb; simpl in *; try discriminate.
    + injection Hb as <-. exists 5%R, 2%R, 0%R. split; [reflexivity|]. cbn. unfold upto. lra.
    + injection H1 as <- <- <-. discriminate.
Qed.
