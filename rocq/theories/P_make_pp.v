From Coq Require Import ZArith Bool List String.
From Verif Require Import Num Res M_make_pp S_make_pp.
Import ListNotations.
Local Open Scope string_scope.

Lemma mem_cases x l : mem x l = true -> In x l.
Proof.
  unfold mem. intros H. apply existsb_exists in H as (y & Hy & E). apply String.eqb_eq in E. congruence.
Qed.

Lemma make_pp_table interpolant kind out nans n :
  (exists f, In (interpolant, kind, out, nans, n, f) pp_table /\ make_pp interpolant kind out nans n = Ok f)
  \/ ((forall f, ~ In (interpolant, kind, out, nans, n, f) pp_table)
      /\ make_pp interpolant kind out nans n = Err ValueError).
Proof.
  unfold make_pp.
  destruct (mem interpolant ["linear"; "pchip"]) eqn:E1; cbn [negb].
  2:{ right. split; [|reflexivity]. intros f H. simpl in H.
      repeat (destruct H as [H|H]; [injection H as <- <- <- <- <- <-; discriminate|]). contradiction. }
  destruct (mem kind ["1"; "u"]) eqn:E2; cbn [negb].
  2:{ right. split; [|reflexivity]. intros f H. simpl in H.
      repeat (destruct H as [H|H]; [injection H as <- <- <- <- <- <-; discriminate|]). contradiction. }
  destruct (mem out ["coeffs"; "interp"]) eqn:E3; cbn [negb].
  2:{ right. split; [|reflexivity]. intros f H. simpl in H.
      repeat (destruct H as [H|H]; [injection H as <- <- <- <- <- <-; discriminate|]). contradiction. }
  destruct ((n =? 1)%Z || (n =? 2)%Z) eqn:E4; cbn [negb].
  2:{ right. split; [|reflexivity]. intros f H. simpl in H.
      repeat (destruct H as [H|H]; [injection H as <- <- <- <- <- <-; discriminate|]). contradiction. }
  apply mem_cases in E1, E2, E3. simpl in E1, E2, E3. apply orb_true_iff in E4.
  rewrite !Z.eqb_eq in E4.
  destruct E1 as [<-|[<-|[]]]; destruct E2 as [<-|[<-|[]]]; destruct E3 as [<-|[<-|[]]];
    destruct E4 as [->| ->]; destruct nans; simpl;
    first [ left; eexists; split; [|reflexivity]; simpl; tauto
          | right; split; [|reflexivity]; intros f H;
            repeat (destruct H as [H|H]; [discriminate|]); contradiction ].
Qed.
