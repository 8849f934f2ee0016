(** * Witnesses for the properties of bfs.py *)
From Coq Require Import List ZArith Bool Lia SpecFloat.
From Verif Require Import Num SF Res Arr M_ppinterp M_traj M_bfs S_graph S_wet.
Import ListNotations.
Local Open Scope Z_scope.

Definition f (m e : Z) : f64 := lit m e.
(** eos(s,t,p) = s and the thermobaric eos(s,t,p) = s + t p *)
Definition eos_s : f64 -> f64 -> f64 -> res f64 := fun s _ _ => Ok s.
Definition eos_tb : f64 -> f64 -> f64 -> res f64 := fun s t p => Ok (add s (mul t p)).
Definition ppc : list f64 -> list f64 -> res (list (list f64)) := linear_coeffs_1 nan.
Definition P2 : list f64 := [f 0 0; f 10 0].
Definition dry : f64 * f64 * f64 := (nan, nan, nan).

(** a path 0 - 1 - 2 with an isolated node 3, in CSR format *)
Definition path_ptr : list nat := [0; 1; 3; 4; 4]%nat.
Definition path_ind : list nat := [1; 0; 2; 1]%nat.

Lemma adj_lt indptr indices m n : adj indptr indices m n -> In n indices.
Proof. intros (a & b & j & _ & _ & _ & H). eapply nth_error_In; eauto. Qed.

Lemma path_csr : csr 4 path_ptr path_ind.
Proof.
  split; [reflexivity|]. intros m n _ H. apply adj_lt in H. simpl in H. lia.
Qed.

Example bfs_path : bfs_conncomp1 5 [7; 7; 7; 7]%nat path_ptr path_ind 0 [true; true; false; true]
  = Ok ([0; 1], [false; false; false; true])%nat.
Proof. reflexivity. Qed.

(** ** A triangle: root 0, and nodes 1, 2 *)
Definition tri_ptr : list nat := [0; 2; 4; 6]%nat.
Definition tri_ind : list nat := [2; 1; 0; 2; 0; 1]%nat.
Definition tri_ind' : list nat := [1; 2; 2; 0; 1; 0]%nat.

Lemma tri_csr : csr 3 tri_ptr tri_ind.
Proof. split; [reflexivity|]. intros m n _ H. apply adj_lt in H. simpl in H. lia. Qed.
Lemma tri_csr' : csr 3 tri_ptr tri_ind'.
Proof. split; [reflexivity|]. intros m n _ H. apply adj_lt in H. simpl in H. lia. Qed.

Lemma tri_adj m n : (m < 3)%nat -> (n < 3)%nat -> m <> n -> adj tri_ptr tri_ind m n.
Proof.
  intros Hm Hn Hmn. destruct m as [|[|[|m]]], n as [|[|[|n]]]; try lia;
    unfold adj; simpl.
  - exists 0%nat, 2%nat, 1%nat. repeat split; auto; lia.
  - exists 0%nat, 2%nat, 0%nat. repeat split; auto; lia.
  - exists 2%nat, 4%nat, 2%nat. repeat split; auto; lia.
  - exists 2%nat, 4%nat, 3%nat. repeat split; auto; lia.
  - exists 4%nat, 6%nat, 4%nat. repeat split; auto; lia.
  - exists 4%nat, 6%nat, 5%nat. repeat split; auto; lia.
Qed.

Lemma tri_adj_same m n : adj tri_ptr tri_ind m n <-> adj tri_ptr tri_ind' m n.
Proof.
  split; intros (a & b & j & H1 & H2 & H3 & H4).
  - destruct m as [|[|[|[|m]]]]; simpl in H1, H2; try discriminate; try (destruct m; discriminate); injection H1 as <-; injection H2 as <-.
    + destruct j as [|[|j]]; try lia; simpl in H4; injection H4 as <-; exists 0%nat, 2%nat;
        [exists 1%nat|exists 0%nat]; repeat split; auto; lia.
    + destruct j as [|[|[|[|j]]]]; try lia; simpl in H4; injection H4 as <-; exists 2%nat, 4%nat;
        [exists 3%nat|exists 2%nat]; repeat split; auto; lia.
    + destruct j as [|[|[|[|[|[|j]]]]]]; try lia; simpl in H4; injection H4 as <-; exists 4%nat, 6%nat;
        [exists 5%nat|exists 4%nat]; repeat split; auto; lia.
  - destruct m as [|[|[|[|m]]]]; simpl in H1, H2; try discriminate; try (destruct m; discriminate); injection H1 as <-; injection H2 as <-.
    + destruct j as [|[|j]]; try lia; simpl in H4; injection H4 as <-; exists 0%nat, 2%nat;
        [exists 1%nat|exists 0%nat]; repeat split; auto; lia.
    + destruct j as [|[|[|[|j]]]]; try lia; simpl in H4; injection H4 as <-; exists 2%nat, 4%nat;
        [exists 3%nat|exists 2%nat]; repeat split; auto; lia.
    + destruct j as [|[|[|[|[|[|j]]]]]]; try lia; simpl in H4; injection H4 as <-; exists 4%nat, 6%nat;
        [exists 5%nat|exists 4%nat]; repeat split; auto; lia.
Qed.

(** *** bfs_conncomp1_wet tries the dry cast 2 from node 0, fails, and tries again from node 1 *)
Definition w_casts : list (list f64 * list f64 * list f64) :=
  [([f 4 0; f 6 0], [f 0 0; f 0 0], P2); ([f 1 0; f 2 0], [f 0 0; f 0 0], P2); ([f 1 0; f 2 0], [f 0 0; f 0 0], P2)].
Definition w_ml : list f64 := [f 0 0; f 0 0; f 0 0].
Definition w_stp : list (f64 * f64 * f64) := [(f 5 0, f 0 0, f 5 0); (f 15 (-1), f 0 0, f 5 0); dry].

Lemma wet_retry :
  exists n b0 b1 r0 r1 qu new stp,
    nth_error w_stp n = Some dry
    /\ nth_error w_stp 0 = Some b0 /\ ntp_to eos_s ppc 100 w_casts (f 1 (-3)) b0 n (Ok r0) /\ ~ accepted w_ml n r0
    /\ nth_error w_stp 1 = Some b1 /\ ntp_to eos_s ppc 100 w_casts (f 1 (-3)) b1 n (Ok r1)
    /\ bfs_conncomp1_wet eos_s ppc 100 w_casts (f 1 (-3)) w_ml 10 [0; 0; 0]%nat tri_ptr tri_ind 0 w_stp = Ok (qu, new, stp)
    /\ In n qu /\ nth_error stp n = Some r1.
Proof.
  eexists 2%nat, _, _, _, _, _, _, _.
  split; [reflexivity|]. split; [reflexivity|].
  split; [eexists _, _, _; split; [reflexivity|vm_compute; reflexivity]|].
  split; [intros (ml & H1 & H2 & H3); vm_compute in H2; discriminate|].
  split; [reflexivity|]. split; [eexists _, _, _; split; [reflexivity|vm_compute; reflexivity]|].
  split; [vm_compute; reflexivity|]. split; [simpl; auto|]. vm_compute. reflexivity.
Qed.

(** *** bfs_conncomp1_wet_perim consults the mixed layer of the wrong cast *)
Definition m_ml : list f64 := [f 0 0; f 100 0; f 100 0].
Definition m_stp : list (f64 * f64 * f64) := [(f 15 (-1), f 0 0, f 5 0); dry; dry].

Lemma perim_wrong_ml :
  exists n s t p ml new stp,
    bfs_conncomp1_wet_perim eos_s ppc 100 w_casts (f 1 (-3)) m_ml 10 [0; 0; 0]%nat tri_ptr tri_ind 0 1 m_stp = Ok (new, stp)
    /\ nth_error m_stp n = Some dry /\ nth_error stp n = Some (s, t, p) /\ isfinite p = true
    /\ nth_error m_ml n = Some ml /\ ltb p ml = true.
Proof.
  eexists 1%nat, _, _, _, _, _, _.
  split; [vm_compute; reflexivity|]. split; [reflexivity|]. split; [reflexivity|].
  split; [vm_compute; reflexivity|]. split; [reflexivity|]. vm_compute. reflexivity.
Qed.

(** *** its result depends on the order of the neighbours *)
Definition o_casts : list (list f64 * list f64 * list f64) :=
  [([f 0 0; f 1 0], [f 0 0; f 0 0], P2); ([f (-1) 0; f 1 0], [f 1 0; f 1 0], P2); ([f 1 0; f 3 0], [f (-1) 0; f (-1) 0], P2)].
Definition o_stp : list (f64 * f64 * f64) := [(f 0 0, f 0 0, f 0 0); dry; dry].
Definition no_ml : list f64 := [ninf; ninf; ninf].

Lemma perim_order :
  exists new stp new' stp' n s t p s' t' p',
    (forall m n, adj tri_ptr tri_ind m n <-> adj tri_ptr tri_ind' m n)
    /\ bfs_conncomp1_wet_perim eos_tb ppc 100 o_casts (f 1 (-3)) no_ml 10 [0; 0; 0]%nat tri_ptr tri_ind 0 10 o_stp = Ok (new, stp)
    /\ bfs_conncomp1_wet_perim eos_tb ppc 100 o_casts (f 1 (-3)) no_ml 10 [0; 0; 0]%nat tri_ptr tri_ind' 0 10 o_stp = Ok (new', stp')
    /\ nth_error stp n = Some (s, t, p) /\ nth_error stp' n = Some (s', t', p')
    /\ ltb (add p' (lit 1 0)) p = true.
Proof.
  eexists _, _, _, _, 2%nat, _, _, _, _, _, _.
  split; [exact tri_adj_same|].
  split; [vm_compute; reflexivity|]. split; [vm_compute; reflexivity|].
  split; [reflexivity|]. split; [reflexivity|]. vm_compute. reflexivity.
Qed.

(** *** a perimeter cast is tried only once: here cast 2 is linked to the
    final surface at node 1 but is still dry *)
Definition c_casts : list (list f64 * list f64 * list f64) :=
  [([f 0 0; f 1 0], [f 0 0; f 0 0], P2); ([f (-1) 0; f 1 0], [f 1 0; f 1 0], P2); ([f 1 0; f 9 0], [f (-1) 0; f (-1) 0], P2)].

Lemma perim_not_exhaustive :
  exists new stp n m r,
    bfs_conncomp1_wet_perim eos_tb ppc 100 c_casts (f 1 (-3)) no_ml 10 [0; 0; 0]%nat tri_ptr tri_ind 0 1000 o_stp = Ok (new, stp)
    /\ wet_at stp n /\ adj tri_ptr tri_ind n m /\ ~ wet_at stp m
    /\ link_p eos_tb ppc 100 c_casts (f 1 (-3)) stp n m (Ok r) /\ below_ml no_ml n r.
Proof.
  eexists _, _, 1%nat, 2%nat, _.
  split; [vm_compute; reflexivity|].
  split; [eexists _, _, _; split; [reflexivity|vm_compute; reflexivity]|].
  split; [apply tri_adj; lia|].
  split; [intros (s & t & p & H1 & H2); vm_compute in H1; injection H1 as <- <- <-; vm_compute in H2; discriminate|].
  split.
  - eexists _, _, _, _, _, _. split.
    + eexists _, _, _, 0%nat, 2%nat. split; [reflexivity|]. split; [vm_compute; reflexivity|]. split; [lia|].
      split; [reflexivity|]. split; vm_compute; reflexivity.
    + split; [reflexivity|]. split; [reflexivity|]. vm_compute. reflexivity.
  - eexists. split; [reflexivity|]. split; vm_compute; reflexivity.
Qed.

Lemma wet_witness :
  csr 3 tri_ptr tri_ind /\ length w_casts = 3%nat /\ length w_ml = 3%nat /\ length w_stp = 3%nat
  /\ (forall S T P, In (S, T, P) w_casts -> (length S <= length P)%nat)
  /\ isfinite (nan : f64) = false
  /\ exists stp, bfs_conncomp1_wet eos_s ppc 100 w_casts (f 1 (-3)) w_ml 10 [0; 0; 0]%nat tri_ptr tri_ind 0 w_stp
                 = Ok ([0; 1; 2]%nat, 1%nat, stp).
Proof.
  split; [exact tri_csr|]. split; [reflexivity|]. split; [reflexivity|]. split; [reflexivity|].
  split; [|split; [reflexivity|eexists; vm_compute; reflexivity]].
  intros S T P H. simpl in H. destruct H as [H|[H|[H|[]]]]; injection H as <- <- <-; simpl; lia.
Qed.

Lemma perim_witness :
  csr 3 tri_ptr tri_ind /\ length o_casts = 3%nat /\ length no_ml = 3%nat /\ length o_stp = 3%nat
  /\ (forall S T P, In (S, T, P) o_casts -> (length S <= length P)%nat)
  /\ isfinite (nan : f64) = false
  /\ exists stp, bfs_conncomp1_wet_perim eos_tb ppc 100 o_casts (f 1 (-3)) no_ml 10 [0; 0; 0]%nat tri_ptr tri_ind 0 10 o_stp
                 = Ok (2%nat, stp).
Proof.
  split; [exact tri_csr|]. split; [reflexivity|]. split; [reflexivity|]. split; [reflexivity|].
  split; [|split; [reflexivity|eexists; vm_compute; reflexivity]].
  intros S T P H. simpl in H. destruct H as [H|[H|[H|[]]]]; injection H as <- <- <-; simpl; lia.
Qed.
