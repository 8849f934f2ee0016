(** * Witnesses for the entry points in binary64 *)
From Coq Require Import String ZArith Bool Reals Lra Lia List SpecFloat.
From Verif Require Import Num XR SF Res Arr Nd M_eostools M_lib M_ntp M_vertsolve M_surfaces S_eos S_float S_fzero64 S_interp S_domain S_named S_traj S_vertsolve
  S_lib S_mixed_layer S_surfaces S_vert64 S_entry64 Ex_vert64.
Import ListNotations.
Local Open Scope R_scope.

(** the two columns, the vertical dimension being the last *)
Definition eS : @data f64 := mk_data (mk_nd [2; 4]%nat (fst (fst colA) ++ fst (fst colB))) None [].
Definition eT : @data f64 := mk_data (mk_nd [2; 4]%nat (snd (fst colA) ++ snd (fst colB))) None [].
Definition eP : @data f64 := mk_data (mk_nd [2; 4]%nat (snd colA ++ snd colB)) None [].
Definition ecol (h : list nat) : column64 := match h with [0%nat] => colA | _ => colB end.
Definition ecol' (h : list nat) : column := match h with [0%nat] => colA' | _ => colB' end.
Definition noindex (_ : string) : option (list f64) := None.
Definition nogrid : @gridarg f64 := GDict None None None.

Lemma valid1 h : valid [2%nat] h -> h = [0%nat] \/ h = [1%nat].
Proof.
  intros V. inversion V as [|? i ? h' Hi V']; subst. inversion V'; subst. destruct i as [|[|i]]; [left|right|lia]; reflexivity.
Qed.

Lemma e_columns : water_columns eS eT eP (VInt (-1)) [2%nat] 4 [] ecol.
Proof.
  assert (HL : forall X : @data f64, dims X = None -> labelled (VInt (-1)) 1 X) by (intros X E ds Ed; rewrite E in Ed; discriminate).
  assert (HC : forall (f : column64 -> list f64) h1 h2, length (f colA) = 4%nat -> length (f colB) = 4%nat -> valid [2%nat] h1 -> valid [] h2 ->
    cast_at (at_ (mk_nd [2; 4]%nat (f colA ++ f colB))) 4 h1 h2 (f (ecol (h1 ++ h2)))).
  { intros f h1 h2 LA LB V1 V2. inversion V2; subst. rewrite app_nil_r.
    destruct (f colA) as [|a0 [|a1 [|a2 [|a3 [|]]]]] eqn:EA; try discriminate. destruct (f colB) as [|b0 [|b1 [|b2 [|b3 [|]]]]] eqn:EB; try discriminate.
    destruct (valid1 _ V1) as [-> | ->]; cbn [ecol]; [rewrite EA|rewrite EB]; (split; [reflexivity|]);
      intros k Hk; destruct k as [|[|[|[|k]]]]; try lia; reflexivity. }
  constructor.
  - split; reflexivity.
  - split; reflexivity.
  - lia.
  - split; [split; [apply HL; reflexivity|]|apply HL; reflexivity]. intros _. exists (-1)%Z. split; [reflexivity|]. split; [cbn; lia|right; reflexivity].
  - split; [reflexivity|]. left. split; [reflexivity|]. intros h1 h2 V1 V2. exact (HC snd h1 h2 eq_refl eq_refl V1 V2).
  - intros h1 h2 V1 V2. split.
    + exact (HC (fun c => fst (fst c)) h1 h2 eq_refl eq_refl V1 V2).
    + exact (HC (fun c => snd (fst c)) h1 h2 eq_refl eq_refl V1 V2).
Qed.

Lemma e_water h : valid [2%nat] h -> holds_column (ecol h) (ecol' h) /\ any_cast (ecol' h) /\ cast_in (sea (/ 1000) 10000) (ecol' h) /\ column_spaced (ecol' h)
  /\ enough_fuel64 fuel_ex 1 (ecol' h).
Proof.
  destruct colA_ok as (A1 & A2 & A3 & A4 & A5), colB_ok as (B1 & B2 & B3 & B4 & B5).
  intros V. destruct (valid1 h V) as [-> | ->]; cbn [ecol ecol'].
  - exact (conj colA_holds (conj A1 (conj A2 (conj A3 A5)))).
  - exact (conj colB_holds (conj B1 (conj B2 (conj B3 B5)))).
Qed.

Lemma e_coordinate : coordinate64 None None 1 10000 /\ coordinate64 (Some (lit 10 0 : f64)) (Some (lit 1000 0 : f64)) 1 10000
  /\ coordinate64 (Some (lit 10 0 : f64)) (Some (lit 1026 0 : f64)) (1026 / 1000) 9000.
Proof.
  destruct h10 as [F10 V10], h1000 as [F1000 V1000], h1026 as [F1026 V1026].
  split; [split; reflexivity|]. split; unfold coordinate64; rewrite V10; [rewrite V1000|rewrite V1026];
    (split; [exact F10|]); (split; [first [exact F1000|exact F1026]|]); repeat split; lra.
Qed.

Lemma e_pin : pin_tuple64 (APin (PinInt (-1))) [-1]%Z /\ indexes [2%nat] [1%nat] [-1]%Z /\ has_pressure (ecol' [1%nat]) 600.
Proof.
  split; [right; exists (-1)%Z; split; reflexivity|]. split; [cbn; lia|].
  exists 1%nat, 4%nat, (lev [0; 34; 35; 35]%Z), (lev [0; 25; 10; 5]%Z), (lev [0; 10; 600; 2000]%Z).
  split; [exact colB_cast|]. split; [lia|]. unfold lev. cbn [nth Nat.sub]. lra.
Qed.

Definition e_run : iso_args := mkIso RNone None (APin (PinInt (-1))) (PFloat (lit 600 0)) (VInt (-1)) (lit 1 0) (AStr "jmd95") None None false nogrid "linear".
Definition e_run_value := Eval vm_compute in
  match potential_surf (nan : f64) fuel_ex eS eT eP noindex e_run with Ok x => Some x | _ => None end.
Lemma e_runs : exists r, e_run_value = Some r /\ potential_surf (nan : f64) fuel_ex eS eT eP noindex e_run = Ok r.
Proof. eexists. split; [unfold e_run_value; reflexivity|]. vm_compute. reflexivity. Qed.
