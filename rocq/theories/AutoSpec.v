(** Vocabulary for the statements about derivatives computed by autograd. *)

From Coq Require Import Reals List.
From Coquelicot Require Import Coquelicot.
From Verif Require Import Prelude RdtModel SpectraModel OpsModel LossModel TotalSpec AutoModel.
Import ListNotations.
Open Scope R_scope.

(** A parameter moved by [t] along its direction. *)
Definition moved (t : R) (d : dual) : R := val d + t * der d.

(** What the lifetime reads when all parameters are moved by [t]. *)
Definition lifetime_at (s : setting) (P : params) (t : R) : lifetime_env :=
  LEnv (st_type s) (exp (moved t (pa_logL P))) (exp (moved t (pa_logT P))) (st_hyp s) (st_coef s) (st_icpt s)
       (taunet_forward (map (map (map (moved t))) (pa_weights P)) (map act_fun (st_acts s)) (moved t (pa_nu P))).

(** The model when all parameters are moved by [t]. *)
Definition model_at (s : setting) (P : params) (t : R) : ops_env :=
  OpsEnv (exp (moved t (pa_logL P))) (exp (moved t (pa_logM P)))
         (if st_learnable s then learnable_energy (moved t (pa_p P)) (moved t (pa_q P)) else vklike_energy)
         (fun k1 k2 k3 => match eddy_lifetime (lifetime_at s P t) k1 k2 k3 with Ok b => b | Err _ => 0 end).

(** The activations have the derivatives their modules apply at all inputs which occur, and
    the shapes of the layers fit. *)
Fixpoint smooth_layers (Ws : list weights) (acts : list activation) (x : list R) : Prop :=
  match Ws with
  | [] => False
  | [W] => forall r, In r W -> length r = length x
  | W :: Ws' =>
      match acts with
      | [] => False
      | f :: acts' =>
          (forall r, In r W -> length r = length x)
          /\ (forall r, In r W -> is_derive (act_fun f) (dot r x) (act_der f (dot r x)))
          /\ smooth_layers Ws' acts' (map (fun r => act_fun f (dot r x)) W)
      end
  end.

(** A network which can be differentiated at a wave vector: smooth there, with an output
    which is not the zero vector. *)
Definition smooth_network (s : setting) (P : params) (k1 k2 k3 : R) : Prop :=
  let Ws := map (map (map val)) (pa_weights P) in
  let L := exp (val (pa_logL P)) in
  let x := [Rabs (k1 * L); Rabs (k2 * L); Rabs (k3 * L)] in
  smooth_layers Ws (st_acts s) x
  /\ exists a, mlp_forward Ws (map act_fun (st_acts s)) x = Ok a /\ vnorm a <> 0.

(** No spectral density on the grid equals a bound at which densities start to be replaced:
    1e-12, and for uw also zero, where the replacement changes its sign. *)
Definition off_bound (sel : tensor6 -> R) (e : ops_env) (p1 p2 : R) (N : nat) (k1 : R) : Prop :=
  forall k2 k3, In k2 (sym_grid p1 p2 N) -> In k3 (sym_grid p1 p2 N) ->
  Rabs (undelivered sel e k1 k2 k3) <> / 10^12 /\ (sel = phi13 -> undelivered sel e k1 k2 k3 <> 0).

(** The lifetime is one of those computed inside torch, and smooth where it is used. *)
Definition differentiable_lifetime (s : setting) (P : params) (p1 p2 : R) (N : nat) (k1 : R) : Prop :=
  st_type s <> MANN
  /\ (st_type s = TAUNET -> forall k2 k3, In k2 (sym_grid p1 p2 N) -> In k3 (sym_grid p1 p2 N) ->
      smooth_network s P k1 k2 k3).

(** The fitted rows when all parameters are moved by [t]. *)
Definition rows_at (s : setting) (P : params) (p1 p2 : R) (N : nat) (curves : list (tensor6 -> R)) (k1s : list R) (t : R)
    : list (list R) :=
  map (fun sel => map (ops_forward sel (model_at s P t) p1 p2 N) k1s) curves.

(** At every node of the grid the ww density is above the bound and grows with the lifetime
    there: the unsheared vertical wave number is positive, the scaled unsheared wave number is
    below the maximum of the energy spectrum. *)
Definition rising (e : ops_env) (p1 p2 : R) (N : nat) (k1 : R) : Prop :=
  forall k2 k3, In k2 (sym_grid p1 p2 N) -> In k3 (sym_grid p1 p2 N) ->
  let k30 := k3 + oe_beta e k1 k2 k3 * k1 in
  0 < k30 /\ (oe_L e)^2 * (k1^2 + k2^2 + k30^2) < 12/5 /\ / 10^12 < undelivered phi33 e k1 k2 k3.
