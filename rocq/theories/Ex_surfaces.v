(** * The entry points: examples *)
From Coq Require Import String ZArith Bool List SpecFloat Lia Reals Lra.
From Verif Require Import Num XR SF XRlemmas Res Arr Nd M_graph M_lib M_eos_base M_eostools M_mixed_layer M_ppinterp M_ntp M_vertsolve M_omega M_surfaces
  S_graph S_eos S_interp S_traj S_vertsolve S_lib S_ntp S_mixed_layer S_omega S_matsolve S_named S_surfaces P_traj P_domain P_linalg P_matsolve P_matsolve2
  Ex_ppinterp Ex_traj Ex_ntp Ex_omega.
Import ListNotations.
Local Open Scope R_scope.

(** ** the hypotheses of the theorems can be met: two columns, the vertical dimension is the first *)
Definition twice {A} (l : list A) : list A := flat_map (fun x => [x; x]) l.
Definition sS : @data xr := mk_data (mk_nd [5; 2]%nat (twice exY)) (Some ["z"; "x"]%string) ["z"; "x"]%string.
Definition sT : @data xr := mk_data (mk_nd [5; 2]%nat (twice exT)) (Some ["z"; "x"]%string) ["z"; "x"]%string.
Definition sP : @data xr := mk_data (mk_nd [5]%nat exX) None [].
Definition sgrid : @gridarg xr := GDict (Some [(0, 1)%nat]) (Some (Sc (Fin 2))) (Some (Ar [Fin 3])).
Definition sindex (nm : string) : option (list xr) := if String.eqb nm "x" then Some [Fin 7; Fin 8] else None.

Lemma s_columns : water_columns sS sT sP (VName "z") [] 5 [2%nat] (fun _ => (exY, exT, exX)).
Proof.
  assert (HC : forall l : list xr, length l = 5%nat -> forall h2, valid [2%nat] h2 -> cast_at (at_ (mk_nd [5; 2]%nat (twice l))) 5 [] h2 l).
  { intros l Hl h2 V. inversion V as [|? i ? h' Hi V']; subst. inversion V'; subst.
    do 5 (destruct l as [|? l]; [discriminate|]). destruct l; [|discriminate]. split; [reflexivity|].
    intros k Hk. destruct i as [|[|i]]; [| |lia]; destruct k as [|[|[|[|[|k]]]]]; try lia; reflexivity. }
  assert (HL : forall X : @data xr, arr X = arr sS \/ arr X = arr sT -> dims X = Some ["z"; "x"]%string -> coords X = ["z"; "x"]%string -> labelled (VName "z") 0 X).
  { intros X HX Ed Ec ds E. rewrite Ed in E. injection E as <-. split.
    - repeat constructor; cbn; intuition discriminate.
    - split; [destruct HX as [-> | ->]; reflexivity|]. exists "z"%string. rewrite Ec. cbn. auto. }
  constructor.
  - split; reflexivity.
  - split; reflexivity.
  - lia.
  - split; [split; [apply HL; cbn; auto|discriminate]|apply HL; cbn; auto].
  - split; [reflexivity|]. right. split; reflexivity.
  - intros h1 h2 V1 V2. inversion V1; subst. split; apply HC; trivial.
Qed.

Lemma s_cast_in : cast_in (seas 1) (exY, exT, exX).
Proof.
  apply (cast_in_block _ _ _ _ _ _ _ _ _ ex_cast). intros i Hi. destruct i as [|[|[|[|i]]]]; try lia; cbn; unfold upto; lra.
Qed.

Lemma s_geometry : geometry [2%nat] sgrid [(0, 1)%nat] [2] [3].
Proof.
  constructor.
  - exists (Sc (Fin 2)), (Ar [Fin 3]). split; [reflexivity|]. split; split; trivial; [right; exists 2; auto|left; reflexivity].
  - repeat constructor; cbn; lia.
  - repeat constructor; lra.
  - repeat constructor; lra.
Qed.

Lemma s_pins : pins sS 0 sindex (APin (PinInt (-1))) [2%nat] [1%nat]
  /\ pins sS 0 sindex (APin (PinDict [("x"%string, Fin 8)])) [2%nat] [1%nat].
Proof.
  split.
  - exists [-1]%Z. split; [constructor|]. cbn. lia.
  - exists (map Z.of_nat [1%nat]). split; [|cbn; lia].
    apply den_dict with (d1 := []) (name := "z"%string) (d2 := ["x"%string]); try reflexivity.
    + intros nm ls. unfold sindex. destruct (String.eqb nm "x"); [|discriminate]. intros E. injection E as <-.
      intros i j u w Hij Hu Hw. destruct i as [|[|i]], j as [|[|j]]; cbn in Hu, Hw; try lia; try (destruct j; discriminate); try (destruct i; discriminate);
        injection Hu as <-; injection Hw as <-; cbn [ltb xrNum xr_ltb]; split; try intros Hl; try lia;
        try (apply Rltb_false; lra); try (apply Rltb_true; lra).
    + split; [reflexivity|]. split; [reflexivity|]. intros k nm i Hk Hi. destruct k as [|[|k]]; cbn in Hk, Hi; try discriminate.
      injection Hk as <-. injection Hi as <-. exists [Fin 7; Fin 8], (Fin 8). split; [left; reflexivity|]. split; reflexivity.
Qed.

Lemma s_pressure : has_pressure (exY, exT, exX) 2.
Proof. exists 1%nat, 4%nat, exys, exts, exxs. split; [exact ex_cast|]. split; [lia|]. cbn. lra. Qed.

Lemma surfaces_witness :
  named_eos "jmd95" jm_rho /\ pressure_factor None None 1 /\ named_interp "linear" linear_fun
  /\ water_columns sS sT sP (VName "z") [] 5 [2%nat] (fun _ => (exY, exT, exX))
  /\ any_cast (exY, exT, exX) /\ cast_in (seas 1) (exY, exT, exX) /\ enough_fuel 13 1 (exY, exT, exX)
  /\ geometry [2%nat] sgrid [(0, 1)%nat] [2] [3]
  /\ pins sS 0 sindex (APin (PinInt (-1))) [2%nat] [1%nat]
  /\ pins sS 0 sindex (APin (PinDict [("x"%string, Fin 8)])) [2%nat] [1%nat]
  /\ has_pressure (exY, exT, exX) 2 /\ dP (seas 1) 2 /\ dS (seas 1) 5 /\ dT (seas 1) 1.
Proof.
  split; [constructor|]. split; [left; auto|]. split; [constructor|]. split; [exact s_columns|]. split; [exact ex_any_cast|].
  split; [exact s_cast_in|]. split; [exact ex_enough_fuel|]. split; [exact s_geometry|]. split; [apply s_pins|]. split; [apply s_pins|].
  split; [exact s_pressure|]. cbn. unfold upto. lra.
Qed.

Lemma omega_entry_witness :
  same_extent (exY, exT, exX) /\ (0 <= 1000 * 1 <= 10000) /\ exact_spsolve ge_spsolve /\ exact_lsqr ge_lsqr
  /\ pins_omega sS 0 sindex (APin (PinInt 1)) [1%nat] /\ init_at [2%nat] [1%nat] 2 (InitScalar (Fin 2))
  /\ init_at [2%nat] [1%nat] 2 (InitArray (mk_data (mk_nd [2%nat] [Fin 1; Fin 2]) None []))
  /\ ml_above [2%nat] [1%nat] 2 (MArray (mk_nd [2%nat] [Fin 9; Fin 1])).
Proof.
  split; [exact ox_extent|]. split; [lra|]. split; [exact ge_spsolve_exact|]. split; [exact ge_lsqr_exact|].
  split; [right; apply den_int|]. split; [reflexivity|]. split; [split; [reflexivity|split; reflexivity]|].
  split; [reflexivity|]. split; [reflexivity|]. intros m Hm. injection Hm as <-. cbn. apply Rltb_false. lra.
Qed.

(** ** runs in binary64: three levels, two columns, the vertical dimension is the first *)
Definition fd (l : list Z) (e : Z) : @data f64 := mk_data (mk_nd [3; 2]%nat (map (fun z => lit z e) l)) (Some ["z"; "x"]%string) ["z"; "x"]%string.
Definition fS := fd [345; 346; 348; 348; 350; 349]%Z (-1)%Z.
Definition fT := fd [10; 11; 6; 6; 3; 4]%Z 0%Z.
Definition fP : @data f64 := mk_data (mk_nd [3]%nat (map (fun z => lit z 0) [0; 500; 1000]%Z)) None [].
Definition fgrid : @gridarg f64 := GDict (Some [(0, 1)%nat]) (Some (Sc (lit 1 0))) (Some (Sc (lit 1 0))).
Definition fpot (pin : pinarg) (grid : gridarg) := potential_surf nan 100 fS fT fP (fun _ => None)
  (mkIso RNone None pin (PFloat (lit 600 0)) (VName "z") (lit 1 (-4)) (AStr "jmd95") None None true grid "linear").
Definition fpot_value := Eval vm_compute in fpot (APin (PinInt (-1))) fgrid.
Lemma fpot_eq : fpot (APin (PinInt (-1))) fgrid = fpot_value.
Proof. vm_compute. reflexivity. Qed.
Lemma fpot_run : exists s t p d, fpot (APin (PinInt (-1))) fgrid = Ok (s, t, p, d) /\ dims s = Some ["x"%string] /\ dims p = Some ["x"%string]
  /\ nth_error (elems (arr p)) 1 = Some (lit 600 0) /\ (exists q, nth_error (elems (arr p)) 0 = Some q /\ ltb (lit 562 0) q = true /\ ltb q (lit 563 0) = true)
  /\ d_ref d = RFloat (lit 600 0) /\ exists e, M_surfaces.d_errors d = Some (e, e, 2%nat) /\ ltb (lit 0 0) e = true.
Proof.
  rewrite fpot_eq. unfold fpot_value. do 4 eexists. split; [reflexivity|]. do 3 (split; [reflexivity|]).
  split; [eexists; split; [reflexivity|split; vm_compute; reflexivity]|].
  split; [vm_compute; reflexivity|]. eexists. split; [reflexivity|vm_compute; reflexivity].
Qed.
Lemma fpot_no_distances : fpot (APin (PinInt 1)) (GDict (Some [(0, 1)%nat]) None None) = Err KeyError.
Proof. vm_compute. reflexivity. Qed.

Definition fomega (pin : pinarg) := omega_surf_pub spsolve2 (fun _ _ _ b => b) nan 100 10 (fun _ => repeat 0%nat 4) (repeat 0%nat 4) (repeat 0%nat 4)
  fS fT fP fgrid pin (InitScalar (lit 600 0)) (fun _ => None)
  (mkOmega (VName "z") (MDict None None None (Some (lit 100 0)) None (Some "linear"%string) None) (AStr "jmd95") None None "linear" (oopt 1 3)).
Definition fomega_value := Eval vm_compute in fomega (APin (PinInt 1)).
Lemma fomega_eq : fomega (APin (PinInt 1)) = fomega_value.
Proof. vm_compute. reflexivity. Qed.
Lemma fomega_run : exists s t p d its, fomega (APin (PinInt 1)) = Ok (s, t, p, Some d, its) /\ length its = 1%nat /\ dims p = Some ["x"%string]
  /\ nth_error (elems (arr p)) 1 = Some (lit 600 0)
  /\ exists a b, d_e_RMS d = [a; b] /\ ltb b a = true /\ ltb (lit 0 0) b = true.
Proof.
  rewrite fomega_eq. unfold fomega_value. do 5 eexists. split; [reflexivity|]. do 3 (split; [reflexivity|]).
  do 2 eexists. split; [reflexivity|]. split; vm_compute; reflexivity.
Qed.
(** a negative index is accepted by potential_surf but not by omega_surf *)
Lemma fomega_negative : fomega (APin (PinInt (-1))) = Err ValueError.
Proof. vm_compute. reflexivity. Qed.
Lemma negative_pin : (exists r, fpot (APin (PinInt (-1))) fgrid = Ok r) /\ fomega (APin (PinInt (-1))) = Err ValueError.
Proof. split; [destruct fpot_run as (s & t & p & d & E & _); exists (s, t, p, d); exact E|exact fomega_negative]. Qed.

(** gravity and the reference density given again in the dict p_ml: depth is converted to pressure twice *)
Definition tg : f64 := lit 981 (-2).
Definition tr : f64 := lit 1035 0.
Definition tomega (p_ml : mlarg) := omega_surf_pub spsolve2 (fun _ _ _ b => b) nan 100 10 (fun _ => repeat 0%nat 4) (repeat 0%nat 4) (repeat 0%nat 4)
  fS fT fP fgrid (APin (PinInt 1)) (InitScalar (lit 600 0)) (fun _ => None) (mkOmega (VName "z") p_ml (AStr "jmd95") (Some tr) (Some tg) "linear" (oopt 1 3)).
Definition tml := Eval vm_compute in mixed_layer fS fT fP (AStr "jmd95") (Some tg) (Some tr) (lit 627 (-4)) (lit 4000 0) 1 "linear" (VName "z").
Definition tml_arr := Eval vm_compute in match tml with Ok m => m | Err _ => mk_nd [] [] end.
Lemma tml_eq : mixed_layer fS fT fP (AStr "jmd95") (Some tg) (Some tr) (lit 627 (-4)) (lit 4000 0) 1 "linear" (VName "z") = Ok tml_arr.
Proof. vm_compute. reflexivity. Qed.
Definition tomega_dict := Eval vm_compute in tomega (MDict (Some tg) (Some tr) (Some (lit 627 (-4))) (Some (lit 4000 0)) None None None).
Definition tomega_arr := Eval vm_compute in tomega (MArray tml_arr).
Lemma tomega_eq : tomega (MDict (Some tg) (Some tr) (Some (lit 627 (-4))) (Some (lit 4000 0)) None None None) = tomega_dict
  /\ tomega (MArray tml_arr) = tomega_arr.
Proof. split; vm_compute; reflexivity. Qed.
Lemma converted_twice : exists s t p dg its s' t' p' dg' its' q,
  tomega (MDict (Some tg) (Some tr) (Some (lit 627 (-4))) (Some (lit 4000 0)) None None None) = Ok (s, t, p, dg, its)
  /\ tomega (MArray tml_arr) = Ok (s', t', p', dg', its')
  /\ nth_error (elems (arr p)) 0 = Some q /\ isfinite q = true /\ nth_error (elems (arr p')) 0 = Some nan.
Proof.
  destruct tomega_eq as [E1 E2]. rewrite E1, E2. unfold tomega_dict, tomega_arr. do 11 eexists. split; [reflexivity|]. split; [reflexivity|].
  split; [reflexivity|]. split; vm_compute; reflexivity.
Qed.
