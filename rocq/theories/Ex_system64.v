(** * Witnesses for the linear problems of omega surfaces in binary64 *)
From Coq Require Import String ZArith Bool Reals Lra Lia List SpecFloat.
From Verif Require Import Num XR SF Res Arr Nd M_eostools M_lib M_ntp M_matsolve S_eos S_float S_domain S_vert64 S_ntp S_ntp64 S_omega S_matsolve S_system64 Ex_vert64 Ex_ntp64.
Import ListNotations.
Local Open Scope R_scope.

(** the bottles of Ex_ntp64; bottle 3 has no temperature *)
Definition ynodes : list nat := [1; 0; 3]%nat.
Definition ywater (i : nat) : option (R * R * R) := nth i nwaters None.

Lemma y_nodes : NoDup ynodes /\ In 0%nat ynodes
  /\ (forall i, In i ynodes -> exists x, nth_error nbottles i = Some x /\ bottle_holds (sea (/ 1000) 10000) (dec 1 (-13)) x (ywater i))
  /\ Forall (fun e => (fst e < length nbottles)%nat /\ (snd e < length nbottles)%nat) nedges /\ nedges <> [].
Proof.
  split; [repeat constructor; cbn; intuition lia|]. split; [cbn; tauto|]. split; [|split; [repeat constructor|discriminate]].
  assert (H := n_bottles). unfold nbottles, nwaters in H. inversion H as [|x0 w0 ? ? B0 H1]; subst. inversion H1 as [|x1 w1 ? ? B1 H2]; subst. inversion H2 as [|x2 w2 ? ? B2 H3]; subst. inversion H3 as [|x3 w3 ? ? B3 _]; subst.
  intros i [<-|[<-|[<-|[]]]]; eexists; (split; [reflexivity|]); assumption.
Qed.

Lemma y_ratio : exists g, gdiv nperp ndist = Ok g.
Proof. eexists. reflexivity. Qed.

(** the matrix and the right hand side, as given to the solvers *)
Definition y_run := match @make_eos_s_t f64 sfNum sdiv (AStr "jmd95") None None, gdiv nperp ndist with
  | Ok (F2 f), Ok g => Some (
      (matsolve_poisson f (fun N A r => map (A 1%nat) (seq 0 N)) nbottles nedges g ynodes 0%nat,
       matsolve_poisson f (fun N A r => r) nbottles nedges g ynodes 1%nat,
       matsolve_gradient f (fun M N A r => map (A 0%nat) (seq 0 N)) nbottles nedges (geom_sqrt g) ynodes 3%nat))
  | _, _ => None end.
Definition y_run_value := Eval vm_compute in y_run.
Lemma y_runs : exists a c d e f g, y_run_value = Some (Ok [zero; a; nan; c], Ok [nan; zero; nan; nan], Ok [d; e; nan; f])
  /\ g = (lit 5 (-1) : f64) /\ a = opp g /\ c = opp (lit 1 (-2) : f64) /\ SFltb d zero = true /\ SFltb zero e = true /\ f = zero /\ y_run = y_run_value.
Proof. do 6 eexists. split; [unfold y_run_value; reflexivity|]. repeat (split; [vm_compute; reflexivity|]). vm_compute. reflexivity. Qed.
