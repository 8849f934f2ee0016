(** * Witnesses for the properties of grid/graph.py, grid/tools.py and lib.py *)
From Coq Require Import String List ZArith Bool Lia SpecFloat Reals.
From Verif Require Import Num SF Res Arr Nd M_graph M_lib S_graph S_labels S_lib P_graph P_casts P_div P_bottom.
Import ListNotations.
Local Open Scope nat_scope.

Definition fl (m : Z) : f64 := lit m 0.

(** a triangle with a tail, a self loop and an isolated node *)
Definition ex_edges : list (nat * nat) := [(0, 1); (2, 1); (0, 2); (3, 2); (3, 3)].
Lemma ex_range : in_range ex_edges 5.
Proof. intros a b H. simpl in H. repeat (destruct H as [H|H]; [injection H as <- <-; lia|]). destruct H. Qed.
Example ex_csr : edges_to_csr (repeat 9 6) (repeat 9 10) ex_edges (Some 5)
  = Ok ([0; 2; 4; 7; 10; 10], [1; 2; 0; 2; 1; 0; 3; 2; 3; 3]).
Proof. reflexivity. Qed.
Example ex_csr_default : edges_to_csr (repeat 9 6) (repeat 9 10) ex_edges None
  = Ok ([0; 2; 4; 7; 10], [1; 2; 0; 2; 1; 0; 3; 2; 3; 3]).
Proof. reflexivity. Qed.
(** no edges: max of an empty array *)
Example ex_csr_empty : edges_to_csr [9] [] [] None = Err ValueError.
Proof. reflexivity. Qed.

(** symmetric matrices with one structure *)
Definition mat (l : list (list Z)) : nat -> nat -> f64 := fun i j => fl (nth j (nth i l []) 0%Z).
Definition ex_D := mat [[0; 3; 0]; [3; 0; 5]; [0; 5; 7]]%Z.
Definition ex_P := mat [[0; 1; 0]; [1; 0; 2]; [0; 2; 4]]%Z.
Ltac three i H := destruct i as [|[|[|i]]]; try lia.
Lemma ex_D_sym : symmetric 3 ex_D.
Proof. intros i j Hi Hj. three i Hi; three j Hj; split; vm_compute; reflexivity. Qed.
Lemma ex_P_sym : symmetric 3 ex_P.
Proof. intros i j Hi Hj. three i Hi; three j Hj; split; vm_compute; reflexivity. Qed.
Lemma ex_same i j : i < 3 -> j < 3 -> (nonzero ex_D i j <-> nonzero ex_P i j).
Proof.
  intros Hi Hj. three i Hi; three j Hj; unfold nonzero; vm_compute; split; intros E; try reflexivity; discriminate.
Qed.
Example ex_grid : build_grid_dict 3 ex_D ex_P = Ok ([(0, 1); (1, 2); (2, 2)], map fl [3; 5; 7]%Z, map fl [1; 2; 4]%Z).
Proof. vm_compute. reflexivity. Qed.

(** one common symmetric structure, but values that are not symmetric *)
Definition ex_U := mat [[0; 1]; [2; 0]]%Z.
Definition ex_V := mat [[0; 1]; [1; 0]]%Z.
Example ex_unsym_twice : build_grid_dict 2 ex_U ex_U = Ok ([(0, 1); (1, 0)], map fl [1; 2]%Z, map fl [1; 2]%Z).
Proof. vm_compute. reflexivity. Qed.
Example ex_unsym_raises : build_grid_dict 2 ex_V ex_U = Err ValueError.
Proof. vm_compute. reflexivity. Qed.
Lemma ex_unsym_not_once : ~ each_pair_once (adjacent ex_U) 2 [(0, 1); (1, 0)].
Proof.
  intros [_ H]. destruct (H 0 1) as (k & e & _ & _ & Hu).
  - lia.
  - lia.
  - left. vm_compute. reflexivity.
  - pose proof (Hu 0 (0, 1) eq_refl (or_introl eq_refl)). pose proof (Hu 1 (1, 0) eq_refl (or_intror eq_refl)). lia.
Qed.

Lemma ex_labels : label_of 2 (-1) 1 /\ label_of 2 0 0 /\ graph_binary_fcn_Z [(-1, 0)%Z] [fl 1; fl 2] sub = Ok [fl 1].
Proof. split; [split; [lia|right; reflexivity]|]. split; [split; [lia|left; reflexivity]|]. vm_compute. reflexivity. Qed.
(** negative labels in graph_binary_fcn count from the end *)
Example ex_negative : graph_binary_fcn_Z [(-1, 0)%Z] [fl 1; fl 2] add = Ok [fl 3].
Proof. vm_compute. reflexivity. Qed.

(** edges_to_graph: a self loop and a repeated edge are counted twice *)
Example ex_loop : exists G, edges_to_graph [(0, 0); (0, 1); (0, 1)] None [fl 1; fl 1; fl 1] = Ok G
  /\ G 0 0 = fl 2 /\ G 0 1 = fl 2 /\ G 1 0 = fl 2.
Proof. eexists. split; [reflexivity|]. vm_compute. auto. Qed.

(** find_first_nan: no NaN gives the length, all NaN gives 0 *)
Definition ex_T : nd f64 := mk_nd [3; 2] [fl 1; fl 2; fl 3; nan; nan; nan].
Example ex_ffn : find_first_nan ex_T (-1) = Ok (mk_nd [3] [2; 1; 0]).
Proof. vm_compute. reflexivity. Qed.
Example ex_bottom : val_at ex_T (KArr (mk_nd [3] [1; 0; -1]%Z)) = Ok (mk_nd [3] [fl 2; fl 3; nan], ex_T).
Proof. vm_compute. reflexivity. Qed.
(** an integer k < 0 overwrites T *)
Example ex_val_at_mutates : val_at ex_T (KInt (-1)) =
  Ok (mk_nd [3] [nan; nan; nan], mk_nd [3; 2] [fl 1; nan; fl 3; nan; nan; nan]).
Proof. vm_compute. reflexivity. Qed.
(** a singleton horizontal axis raises *)
Example ex_val_at_singleton : val_at (mk_nd [1; 2] [fl 1; fl 2]) (KArr (mk_nd [1] [1]%Z)) = Err IndexError.
Proof. vm_compute. reflexivity. Qed.
Example ex_take_fill : take_fill (repeat (fl 7) 3) [fl 1; fl 2] [1; -1; 0]%Z nan = Ok [fl 2; nan; fl 1].
Proof. vm_compute. reflexivity. Qed.
Example ex_aggsum : aggsum [fl 1; fl 2; fl 4; fl 8] [1; -1; 0; 1]%Z 3 = Ok [fl 4; fl 9; fl 0].
Proof. vm_compute. reflexivity. Qed.

(** divergence around a triangle with a tail *)
Example ex_div : divergence [fl 1; fl 2; fl 3; fl 4] [(0, 1); (1, 2); (2, 0); (0, 3)] [fl 1; fl 1; fl 1; fl 2] [fl 1; fl 1; fl 2; fl 4]
  = Ok [fl 6; fl 1; lit 5 (-1); fl (-2)].
Proof. vm_compute. reflexivity. Qed.
(** an isolated last node makes the area array too long *)
Example ex_div_isolated : divergence [fl 1] [(0, 1)] [fl 1] [fl 1; fl 1; fl 1] = Err ValueError.
Proof. vm_compute. reflexivity. Qed.

(** casts with the vertical dimension first and last, P given as a vector *)
Definition ex_S : @data f64 := mk_data (mk_nd [2; 3] (map fl [1; 2; 3; 11; 12; 13]%Z)) (Some ["z"; "x"]%string) ["z"%string].
Definition ex_Pv : @data f64 := mk_data (mk_nd [2] (map fl [100; 200]%Z)) None [].
Example ex_casts : process_casts ex_S ex_S ex_Pv (VName "z") =
  Ok (mk_nd [3; 2] (map fl [1; 11; 2; 12; 3; 13]%Z), mk_nd [3; 2] (map fl [1; 11; 2; 12; 3; 13]%Z),
      mk_nd [3; 2] (map fl [100; 200; 100; 200; 100; 200]%Z)).
Proof. vm_compute. reflexivity. Qed.
Example ex_casts_int : process_casts ex_S ex_S ex_Pv (VInt (-2)) = process_casts ex_S ex_S ex_Pv (VName "z").
Proof. vm_compute. reflexivity. Qed.
Example ex_xr_in : xr_in ex_S (VName "z") = Ok (Some (["x"%string], [3])).
Proof. reflexivity. Qed.
(** no coordinate variable along the vertical *)
Example ex_xr_in_no_coord : xr_in (mk_data (arr ex_S) (dims ex_S) []) (VName "z") = Err ValueError.
Proof. reflexivity. Qed.
(** T with its dimensions in another order is laid out by S's axis *)
Definition ex_T2 : @data f64 := mk_data (mk_nd [3; 2] (map fl [1; 11; 2; 12; 3; 13]%Z)) (Some ["x"; "z"]%string) ["z"%string].
Example ex_casts_T : exists s t p, process_casts ex_S ex_T2 ex_S (VName "z") = Ok (s, t, p) /\ shape s = [3; 2] /\ shape t = [2; 3].
Proof. eexists _, _, _. split; [vm_compute; reflexivity|]. auto. Qed.

(** pin cast labels *)
Definition ex_index (nm : string) : option (list f64) :=
  if String.eqb nm "x" then Some (map fl [10; 20; 30]%Z) else if String.eqb nm "y" then Some (map fl [1; 2; 3]%Z) else None.
Example ex_pin : process_pin_cast (PinDict [("x"%string, fl 20); ("y"%string, fl 3)]) ex_index = Ok [1; 2]%Z.
Proof. vm_compute. reflexivity. Qed.
Example ex_pin_swapped : process_pin_cast (PinDict [("y"%string, fl 3); ("x"%string, fl 20)]) ex_index = Ok [2; 1]%Z.
Proof. vm_compute. reflexivity. Qed.
Example ex_pin_beyond : process_pin_cast (PinDict [("x"%string, fl 40); ("y"%string, fl 3)]) ex_index = Ok [3; 2]%Z.
Proof. vm_compute. reflexivity. Qed.
(** decreasing labels *)
Example ex_pin_decreasing : process_pin_cast (PinDict [("x"%string, fl 30)]) (fun _ => Some (map fl [30; 20; 10]%Z)) = Ok [3]%Z.
Proof. vm_compute. reflexivity. Qed.
Lemma ex_selects d : d = [("x"%string, fl 20); ("y"%string, fl 3)] \/ d = [("y"%string, fl 3); ("x"%string, fl 20)] ->
  selects ["x"; "y"]%string ex_index d [1; 2].
Proof.
  intros Hd. split; [reflexivity|]. split; [destruct Hd as [-> | ->]; reflexivity|].
  intros k nm i Hk Hi. destruct k as [|[|k]]; simpl in Hk, Hi; try (destruct k; discriminate); injection Hk as <-; injection Hi as <-.
  - exists (map fl [10; 20; 30]%Z), (fl 20). split; [destruct Hd as [-> | ->]; simpl; auto|]. split; reflexivity.
  - exists (map fl [1; 2; 3]%Z), (fl 3). split; [destruct Hd as [-> | ->]; simpl; auto|]. split; reflexivity.
Qed.
Lemma ex_increasing nm ls : ex_index nm = Some ls -> increasing ls.
Proof.
  unfold ex_index. destruct (String.eqb nm "x"); [|destruct (String.eqb nm "y"); [|discriminate]]; intros E; injection E as <-.
  - intros i j u v Hij Hu Hv. destruct i as [|[|[|i]]], j as [|[|[|j]]]; simpl in Hu, Hv; try (destruct i; discriminate);
      try (destruct j; discriminate); try lia; injection Hu as <-; injection Hv as <-;
      (split; [vm_compute; reflexivity|intros; try lia; vm_compute; reflexivity]).
  - intros i j u v Hij Hu Hv. destruct i as [|[|[|i]]], j as [|[|[|j]]]; simpl in Hu, Hv; try (destruct i; discriminate);
      try (destruct j; discriminate); try lia; injection Hu as <-; injection Hv as <-;
      (split; [vm_compute; reflexivity|intros; try lia; vm_compute; reflexivity]).
Qed.

(** ** in the form of the refuting theorems *)
Lemma ex_U_sym : sym_str 2 ex_U.
Proof. intros i j Hi Hj. destruct i as [|[|i]], j as [|[|j]]; try lia; unfold nonzero; vm_compute; auto. Qed.
Lemma ex_V_sym : sym_str 2 ex_V.
Proof. intros i j Hi Hj. destruct i as [|[|i]], j as [|[|j]]; try lia; unfold nonzero; vm_compute; auto. Qed.
Lemma ex_UV i j : i < 2 -> j < 2 -> (nonzero ex_V i j <-> nonzero ex_U i j).
Proof. intros Hi Hj. destruct i as [|[|i]], j as [|[|j]]; try lia; unfold nonzero; vm_compute; tauto. Qed.
Lemma ex_unsym_refutes :
  exists D P : nat -> nat -> f64, sym_str 2 D /\ (forall i j, i < 2 -> j < 2 -> (nonzero D i j <-> nonzero P i j))
    /\ exists e d p, build_grid_dict 2 D P = Ok (e, d, p) /\ ~ each_pair_once (adjacent D) 2 e.
Proof.
  exists ex_U, ex_U. split; [exact ex_U_sym|]. split; [tauto|]. eexists _, _, _. split; [exact ex_unsym_twice|exact ex_unsym_not_once].
Qed.
Lemma ex_unsym_rejected :
  exists D P : nat -> nat -> f64, sym_str 2 D /\ (forall i j, i < 2 -> j < 2 -> (nonzero D i j <-> nonzero P i j))
    /\ build_grid_dict 2 D P = Err ValueError.
Proof. exists ex_V, ex_U. split; [exact ex_V_sym|]. split; [exact ex_UV|exact ex_unsym_raises]. Qed.
Lemma ex_div_refutes :
  exists (v : list f64) edges (d area : list f64), in_range edges (length area) /\ length v = length edges
    /\ length d = length edges /\ divergence v edges d area = Err ValueError.
Proof.
  exists [fl 1], [(0, 1)], [fl 1], [fl 1; fl 1; fl 1]. split; [|split; [reflexivity|split; [reflexivity|exact ex_div_isolated]]].
  intros a b [E|[]]. injection E as <- <-. simpl. lia.
Qed.
Lemma ex_loop_refutes :
  exists edges (w : list f64) G, edges_to_graph edges None w = Ok G
    /\ nth_error edges 0 = Some (0, 0) /\ nth_error w 0 = Some (fl 1) /\ G 0 0 = fl 2
    /\ nth_error edges 1 = Some (0, 1) /\ nth_error w 1 = Some (fl 1) /\ G 0 1 = fl 2.
Proof.
  exists [(0, 0); (0, 1); (0, 1)], [fl 1; fl 1; fl 1]. destruct ex_loop as (G & E & H1 & H2 & _). exists G. auto 10.
Qed.
Lemma ex_negative_refutes :
  exists edges (v : list f64) f x, In (-1, 0)%Z edges /\ graph_binary_fcn_Z edges v f = Ok [x] /\ isnan x = false.
Proof. exists [(-1, 0)%Z], [fl 1; fl 2], add, (fl 3). split; [left; reflexivity|]. split; [exact ex_negative|vm_compute; reflexivity]. Qed.

(** docstring of find_first_nan: "0 if a1 has no NaNs, or a.shape[axis] if a1 is all NaN" *)
Lemma ex_ffn_refutes :
  exists (a : nd f64) out, find_first_nan a (-1) = Ok out /\ shape a = [3; 2]
    /\ (forall j, j < 2 -> exists v, at_ a [0; j] = Some v /\ isnan v = false) /\ at_ out [0] = Some 2
    /\ (forall j, j < 2 -> exists v, at_ a [2; j] = Some v /\ isnan v = true) /\ at_ out [2] = Some 0.
Proof.
  exists ex_T, (mk_nd [3] [2; 1; 0]). split; [exact ex_ffn|]. split; [reflexivity|].
  split; [|split; [reflexivity|split; [|reflexivity]]]; intros j Hj; destruct j as [|[|j]]; try lia; eexists; split; vm_compute; reflexivity.
Qed.
Lemma ex_val_at_mutates_refutes :
  exists (T Tk T' : nd f64) k, val_at T (KInt k) = Ok (Tk, T') /\ T' <> T.
Proof. exists ex_T. eexists _, _, (-1)%Z. split; [exact ex_val_at_mutates|]. intros E. vm_compute in E. discriminate. Qed.
Lemma ex_val_at_singleton_refutes :
  exists (T : nd f64) (k : nd Z), wf T /\ wf k /\ shape T = shape k ++ [2] /\ elems k = [1]%Z /\ val_at T (KArr k) = Err IndexError.
Proof.
  exists (mk_nd [1; 2] [fl 1; fl 2]), (mk_nd [1] [1]%Z). repeat (split; [reflexivity|]). exact ex_val_at_singleton.
Qed.
Lemma ex_casts_T_refutes :
  exists (S T P : @data f64) s t p, process_casts S T P (VName "z") = Ok (s, t, p)
    /\ dims T = Some ["x"; "z"]%string /\ shape (arr T) = [3; 2] /\ shape t = [2; 3].
Proof.
  destruct ex_casts_T as (s & t & p & E & _ & H). exists ex_S, ex_T2, ex_S, s, t, p. auto.
Qed.
Lemma ex_no_coord_refutes :
  exists (S : @data f64) ds, dims S = Some ds /\ In "z"%string ds /\ 0 < nth 0 (shape (arr S)) 0 /\ xr_in S (VName "z") = Err ValueError.
Proof. exists (mk_data (arr ex_S) (dims ex_S) []), ["z"; "x"]%string. split; [reflexivity|]. split; [left; reflexivity|]. split; [simpl; lia|exact ex_xr_in_no_coord]. Qed.
Lemma ex_pin_refutes :
  exists dims (index : string -> option (list f64)) d idx,
    NoDup dims /\ (forall nm ls, index nm = Some ls -> increasing ls) /\ selects dims index d idx
    /\ process_pin_cast (PinDict d) index = Ok [2; 1]%Z /\ [2; 1]%Z <> map Z.of_nat idx.
Proof.
  exists ["x"; "y"]%string, ex_index, [("y"%string, fl 3); ("x"%string, fl 20)], [1; 2].
  split; [constructor; [simpl; intros [E|[]]; discriminate|constructor; [intros []|constructor]]|].
  split; [exact ex_increasing|]. split; [apply ex_selects; right; reflexivity|]. split; [exact ex_pin_swapped|discriminate].
Qed.
Lemma ex_pin_decreasing_refutes :
  exists (index : string -> option (list f64)) d idx, selects ["x"%string] index d idx
    /\ map fst d = ["x"%string] /\ process_pin_cast (PinDict d) index = Ok [3]%Z /\ idx = [0].
Proof.
  exists (fun _ => Some (map fl [30; 20; 10]%Z)), [("x"%string, fl 30)], [0]. split; [|split; [reflexivity|split; [exact ex_pin_decreasing|reflexivity]]].
  split; [reflexivity|]. split; [reflexivity|]. intros [|k] nm i Hk Hi; simpl in Hk, Hi; [|destruct k; discriminate].
  injection Hk as <-. injection Hi as <-. eexists _, _. split; [left; reflexivity|]. split; reflexivity.
Qed.
