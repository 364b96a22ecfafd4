(** Model of the energy spectra, the eddy lifetimes, the network TauNet and the
    scale parameters of the one-point-spectra module. *)

From Coq Require Import Reals List Arith ZArith.
From Verif Require Import Prelude RdtModel.
Import ListNotations.
Open Scope R_scope.

(** ** Energy spectra (drdmannturb/common.py); kL > 0 in every call of the code. *)

(** common.py L51. *)
Definition vk_energy (kL : R) : R := kL^4 / Rpower (1 + kL^2) (17/6).

(** common.py L71. *)
Definition vklike_energy (kL : R) : R :=
  Rpower kL (-5/3) * Rpower (kL / sqrt (1 + kL^2)) (17/3).

(** common.py L81. *)
Definition learnable_energy (p q kL : R) : R := Rpower kL p / Rpower (1 + kL^2) q.

(** ** Eddy lifetime formulas *)

(** common.py L109-113, [hyp x] standing for `hyp2f1(1/3, 17/6, 4/3, x)`
    (the conversions between torch and numpy are the identity in the model). *)
Definition mann_lifetime (hyp : R -> R) (x : R) : R :=
  Rpower x (-2/3) / sqrt (hyp (- Rpower x (-2))).

(** common.py L152. *)
Definition mann_linear_approx (kL coef intercept : R) : R :=
  exp (coef * ln kL + intercept).

(** drdmannturb/nn_modules.py L61-65: `Rational.forward`; `**` on a positive base. *)
Definition rational (nu x : R) : R :=
  let a := nu - 2/3 in
  let b := nu / 2 in
  let out := Rabs x in
  Rpower out a / Rpower (1 + out^2) b.

(** nn_modules.py L28: default of `nu_init`. *)
Definition nu_default : R := -1/3.

(** ** TauNet: construction *)

(** A weight matrix of `nn.Linear(_, _, bias=False)` (nn_modules.py L149-156): one list
    per output unit. *)
Definition weights : Type := list (list R).

(** Shape (rows = outputs, columns = inputs) of a layer (nn_modules.py L149-156). *)
Definition has_shape (rows cols : nat) (W : weights) : Prop :=
  length W = rows /\ Forall (fun r => length r = cols) W.

(** Argument `hidden_layer_sizes`: an int or a list of ints (nn_modules.py L91). *)
Inductive size_arg : Type :=
| SizeInt : Z -> size_arg
| SizeList : list Z -> size_arg.

(** An element given for an activation: a module or something else (nn_modules.py
    L141-143). *)
Inductive act_elt (A : Type) : Type :=
| ActModule : A -> act_elt A
| ActOther : act_elt A.
Arguments ActModule {A} _.
Arguments ActOther {A}.

(** Argument `activations` (nn_modules.py L92): None, a module, a list, or
    an object of any other kind. *)
Inductive act_arg (A : Type) : Type :=
| ActNone : act_arg A
| ActOne : A -> act_arg A
| ActList : list (act_elt A) -> act_arg A
| ActInvalid : act_arg A.
Arguments ActNone {A}.
Arguments ActOne {A} _.
Arguments ActList {A} _.
Arguments ActInvalid {A}.

(** Argument `n_layers`: an int, or an object which is not an int (nn_modules.py
    L115). *)
Inductive int_arg : Type :=
| IsInt : Z -> int_arg
| NotInt : int_arg.

(** nn_modules.py L115-117. *)
Definition check_n_layers (n : int_arg) : res nat :=
  match n with
  | NotInt => Err ValueError
  | IsInt z => if (z <=? 0)%Z then Err ValueError else Ok (Z.to_nat z)
  end.

(** nn_modules.py L120-131. *)
Definition check_sizes (n : nat) (sz : size_arg) : res (list nat) :=
  match sz with
  | SizeInt h => if (h <=? 0)%Z then Err ValueError else Ok (repeat (Z.to_nat h) n)
  | SizeList l =>
      if negb (length l =? n)%nat then Err ValueError
      else if existsb (fun h => (h <=? 0)%Z) l then Err ValueError
      else Ok (map Z.to_nat l)
  end.

(** nn_modules.py L141-144. *)
Fixpoint check_act_elts {A : Type} (l : list (act_elt A)) : res (list A) :=
  match l with
  | [] => Ok []
  | ActModule a :: l' => bind (check_act_elts l') (fun r => Ok (a :: r))
  | ActOther :: _ => Err ValueError
  end.

(** nn_modules.py L134-146; [relu] is `nn.ReLU()`. *)
Definition check_activations {A : Type} (relu : A) (n : nat) (a : act_arg A) : res (list A) :=
  match a with
  | ActNone => Ok (repeat relu n)
  | ActOne m => Ok (repeat m n)
  | ActList l => if negb (length l =? n)%nat then Err ValueError else check_act_elts l
  | ActInvalid => Err ValueError
  end.

(** nn_modules.py L149-158: (inputs, outputs) of the linear layers.  [sizes] is
    not empty when the checks have passed. *)
Fixpoint hidden_pairs (sizes : list nat) : list (nat * nat) :=
  match sizes with
  | a :: ((b :: _) as rest) => (a, b) :: hidden_pairs rest
  | _ => []
  end.

(** nn_modules.py L149-156. *)
Definition layer_shapes (sizes : list nat) : list (nat * nat) :=
  (3%nat, hd 0%nat sizes) :: hidden_pairs sizes ++ [(last sizes 0%nat, 3%nat)].

(** Result of the constructor (nn_modules.py L115-169): layer shapes, activations, whether nu is learned,
    and the initial nu. *)
Record taunet_cfg (A : Type) : Type := TauCfg
  { tc_sizes : list nat; tc_layers : list (nat * nat); tc_acts : list A; tc_learn_nu : bool; tc_nu : R }.
Arguments TauCfg {A} _ _ _ _ _.
Arguments tc_sizes {A} _.
Arguments tc_layers {A} _.
Arguments tc_acts {A} _.
Arguments tc_learn_nu {A} _.
Arguments tc_nu {A} _.

(** nn_modules.py L88-169: `TauNet.__init__` (the 1e-9 noise added to every
    parameter at L164-167 only changes initial values: those of the weights are
    arbitrary in the model, a learned exponent starts near [nu_init]). *)
Definition taunet_init {A : Type} (relu : A) (n : int_arg) (sz : size_arg) (act : act_arg A)
    (learn_nu : bool) (nu_init : R) : res (taunet_cfg A) :=
  bind (check_n_layers n) (fun n' =>
  bind (check_sizes n' sz) (fun sizes =>
  bind (check_activations relu n' act) (fun acts =>
  Ok (TauCfg sizes (layer_shapes sizes) acts learn_nu nu_init)))).

(** Number of trainable scalars registered by the constructor: one weight per
    (input, output) pair of every layer (no bias) and nu when it is learned
    (nn_modules.py L149-161, L44-45); this is what
    drdmannturb/spectra_fitting/calibration.py L614-635 reports. *)
Definition num_params {A : Type} (c : taunet_cfg A) : nat :=
  (fold_right (fun p acc => fst p * snd p + acc)%nat 0%nat (tc_layers c)
   + (if tc_learn_nu c then 1 else 0))%nat.

(** ** TauNet: forward pass *)

(** Scalar product of two rows (`nn.Linear`, nn_modules.py L176-180). *)
Fixpoint dot (r x : list R) : R :=
  match r, x with
  | a :: r', b :: x' => a * b + dot r' x'
  | _, _ => 0
  end.

(** `nn.Linear` without bias (nn_modules.py L176-180): raises (RuntimeError) when the input width differs
    from the number of columns of some row. *)
Definition linear (W : weights) (x : list R) : res (list R) :=
  if forallb (fun r => (length r =? length x)%nat) W
  then Ok (map (fun r => dot r x) W)
  else Err RuntimeError.

(** nn_modules.py L176-180: all but the last layer are followed by their
    activation; running out of activations is an IndexError. *)
Fixpoint mlp_layers (Ws : list weights) (acts : list (R -> R)) (x : list R) : res (list R) :=
  match Ws with
  | [] => Err IndexError
  | [W] => linear W x
  | W :: Ws' =>
      match acts with
      | [] => Err IndexError
      | f :: acts' => bind (linear W x) (fun y => mlp_layers Ws' acts' (map f y))
      end
  end.

(** Elementwise sum (nn_modules.py L182), RuntimeError on a length mismatch (torch broadcasting of
    unequal widths; widths of one are not used by the code). *)
Fixpoint vadd (x y : list R) : res (list R) :=
  match x, y with
  | [], [] => Ok []
  | a :: x', b :: y' => bind (vadd x' y') (fun r => Ok (a + b :: r))
  | _, _ => Err RuntimeError
  end.

(** nn_modules.py L171-182: `_mlp_forward` with the residual connection. *)
Definition mlp_forward (Ws : list weights) (acts : list (R -> R)) (x : list R) : res (list R) :=
  bind (mlp_layers Ws acts x) (fun out => vadd x out).

(** Euclidean norm (`.norm(dim=-1)`, nn_modules.py L200). *)
Definition vnorm (x : list R) : R := sqrt (Rsum (map (fun a => a^2) x)).

(** nn_modules.py L200-202: `TauNet.forward`. *)
Definition taunet_forward (Ws : list weights) (acts : list (R -> R)) (nu : R) (k : list R) : res R :=
  bind (mlp_forward Ws acts (map Rabs k)) (fun a => Ok (rational nu (vnorm a))).

(** ** Eddy lifetime dispatch *)

(** drdmannturb/enums.py L6-9. *)
Inductive eddy_type : Type := TWOTHIRD | TAUNET | MANN | MANN_APPROX | CONST.

(** What `EddyLifetime` (one_point_spectra.py L465-514) reads: current scales, external functions, the fitted
    line of the Mann approximation, the network as a function of a wave vector. *)
Record lifetime_env : Type := LEnv
  { le_type : eddy_type;
    le_L : R;
    le_T : R;
    le_hyp : R -> R;
    le_coef : R;
    le_icpt : R;
    le_net : list R -> res R }.

(** drdmannturb/spectra_fitting/one_point_spectra.py L487-514 (L531: the initial
    guess added to the network is 0).  [le_coef]/[le_icpt] are the result of the
    one-time call of `init_mann_approximation` (L494-497).  The final `else` of
    L510-513 is unreachable: the enum has exactly these five values. *)
Definition eddy_lifetime (env : lifetime_env) (k1 k2 k3 : R) : res R :=
  let kL := le_L env * sqrt (kk_of k1 k2 k3) in
  bind
    match le_type env with
    | CONST => Ok 1
    | MANN => Ok (mann_lifetime (le_hyp env) kL)
    | MANN_APPROX => Ok (mann_linear_approx kL (le_coef env) (le_icpt env))
    | TWOTHIRD => Ok (Rpower kL (-2/3))
    | TAUNET => bind (le_net env [k1 * le_L env; k2 * le_L env; k3 * le_L env])
                     (fun t => Ok (0 + t))
    end
    (fun tau => Ok (le_T env * tau)).

(** ** Log-linear regression of the Mann lifetime *)

(** `LinearRegression().fit` with one feature (one_point_spectra.py L450-453): slope and intercept of the least
    squares line (xs not constant). *)
Definition ols_slope (xs ys : list R) : R :=
  let mx := Rmean xs in
  let my := Rmean ys in
  Rsum (map (fun p => (fst p - mx) * (snd p - my)) (combine xs ys))
  / Rsum (map (fun x => (x - mx)^2) xs).

(** Intercept of the least squares line (one_point_spectra.py L450-461). *)
Definition ols_intercept (xs ys : list R) : R :=
  Rmean ys - ols_slope xs ys * Rmean xs.

(** `np.linspace(a, b, n)` (fluctuation_field_generator.py L357; n >= 2: end points
    included; n = 1: [a]). *)
Definition linspace (a b : R) (n : nat) : list R :=
  map (fun i => a + INR i * ((b - a) / INR (n - 1))) (seq 0 n).

(** `np.logspace(a, b, n)` / `torch.logspace` (base 10; one_point_spectra.py L114,
    L443). *)
Definition logspace (a b : R) (n : nat) : list R :=
  map (fun t => Rpower 10 t) (linspace a b n).

(** one_point_spectra.py L443-461: regression of
    log(TimeScale * tau(LengthScale * k)) on log k over logspace(-3, 3, 50);
    [tau] is `MannEddyLifetime`. *)
Definition mann_approx_fit (tau : R -> R) (Lscalar Tscalar : R) : R * R :=
  let ks := logspace (-3) 3 50 in
  let xs := map ln ks in
  let ys := map (fun k => ln (Tscalar * tau (Lscalar * k))) ks in
  (ols_slope xs ys, ols_intercept xs ys).

(** one_point_spectra.py L503-504 and L514: lifetime delivered for
    `MANN_APPROX` with current scales [L], [T], the line having been fitted with
    the scalars [Ls], [Ts]. *)
Definition mann_approx_lifetime (tau : R -> R) (Ls Ts L T kmag : R) : R :=
  let fit := mann_approx_fit tau Ls Ts in
  T * mann_linear_approx (L * kmag) (fst fit) (snd fit).

(** ** Scale parameters *)

(** `np.log10` (one_point_spectra.py L144-146). *)
Definition log10 (x : R) : R := ln x / ln 10.

(** one_point_spectra.py L86-88, L140-146: initial values of the three scale
    parameters of a stand-alone module. *)
Definition ops_initial_params (L Gamma sigma : R) : res (R * R * R) :=
  if Rltb 0 L then
    if Rltb 0 Gamma then
      if Rltb 0 sigma then Ok (log10 L, log10 Gamma, log10 sigma)
      else Err AssertionError
    else Err AssertionError
  else Err AssertionError.

(** one_point_spectra.py L190-193: `exp_scales`. *)
Definition exp_scales (p : R * R * R) : R * R * R :=
  match p with (a, b, c) => (exp a, exp b, exp c) end.

(** drdmannturb/spectra_fitting/calibration.py L198-207: the first three
    parameters are overwritten by natural logarithms. *)
Definition log_dimensional_scales (L Gamma sigma : R) : res (R * R * R) :=
  if andb (Rltb 0 L) (andb (Rltb 0 Gamma) (Rltb 0 sigma))
  then Ok (ln L, ln Gamma, ln sigma)
  else Err ValueError.

(** calibration.py L112-129: scale parameters of a fresh calibration problem (the
    module's own initial values are computed and then overwritten). *)
Definition calib_initial_params (L Gamma sigma : R) : res (R * R * R) :=
  bind (ops_initial_params L Gamma sigma) (fun _ => log_dimensional_scales L Gamma sigma).

(** one_point_spectra.py L243-253: energy density handed to the spectral tensor;
    [spec] is `VKLike_EnergySpectrum` or `Learnable_EnergySpectrum` with the
    current exponents. *)
Definition forward_energy (spec : R -> R) (Magnitude LengthScale beta k1 k2 k3 : R) : R :=
  let k0L := LengthScale * sqrt (kk0_of beta k1 k2 k3) in
  Magnitude * Rpower LengthScale (5/3) * spec k0L.

(** nn_modules.py L61-65 in extended reals, covering the zero argument as well:
    0 ** a is an infinity for a < 0. *)
Definition rational_x (nu x : R) : xr :=
  let out := Rabs x in
  xdiv (xpow out (nu - 2/3)) (xpow (1 + out^2) (nu/2)).
