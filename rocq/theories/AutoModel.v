(** Model of the derivatives which torch's autograd attaches to the one-point spectra
    (drdmannturb/spectra_fitting/one_point_spectra.py, drdmannturb/common.py,
    drdmannturb/nn_modules.py) and to the loss
    (drdmannturb/spectra_fitting/loss_functions.py).  Every operation is followed by its
    documented derivative formula.  The gradient is represented by its inner product with an
    arbitrary direction in the space of all trainable parameters (backward computes the same
    sums in another order); only the values are shared with the other models. *)

From Coq Require Import Reals List ZArith.
From Verif Require Import Prelude RdtModel SpectraModel OpsModel LossModel.
Import ListNotations.
Open Scope R_scope.

(** An entry of a tensor with its derivative; parameters (one_point_spectra.py L144-150,
    nn_modules.py L44-45, L149-156) have the components of the direction. *)
Record dual : Type := Dual { val : R; der : R }.

(** ** Operations of torch *)

(** A number which no parameter enters, also the result of `.detach().numpy()`
    (common.py L109). *)
Definition const (x : R) : dual := Dual x 0.

(** Sum (one_point_spectra.py L573). *)
Definition dadd (a b : dual) : dual := Dual (val a + val b) (der a + der b).

(** Difference (one_point_spectra.py L583). *)
Definition dsub (a b : dual) : dual := Dual (val a - val b) (der a - der b).

(** Product (one_point_spectra.py L253). *)
Definition dmul (a b : dual) : dual := Dual (val a * val b) (der a * val b + val a * der b).

(** Quotient (one_point_spectra.py L583). *)
Definition ddiv (a b : dual) : dual := Dual (val a / val b) (der a / val b - der b * ((val a / val b) / val b)).

(** `x ** 2` (one_point_spectra.py L574). *)
Definition dsq (a : dual) : dual := Dual (val a ^ 2) (der a * (2 * val a)).

(** `x ** c` for a float (one_point_spectra.py L253; common.py L71; nn_modules.py L65). *)
Definition dpow (a : dual) (c : R) : dual := Dual (Rpower (val a) c) (der a * (c * Rpower (val a) (c - 1))).

(** `x ** p` for a tensor (common.py L81). *)
Definition dpowt (a p : dual) : dual :=
  Dual (Rpower (val a) (val p))
       (der a * (val p * Rpower (val a) (val p - 1)) + der p * (Rpower (val a) (val p) * ln (val a))).

(** `torch.sqrt` (common.py L71). *)
Definition dsqrt (a : dual) : dual := Dual (sqrt (val a)) (der a / (2 * sqrt (val a))).

(** `torch.exp` (one_point_spectra.py L190-192; common.py L152). *)
Definition dexp (a : dual) : dual := Dual (exp (val a)) (der a * exp (val a)).

(** `torch.log` (common.py L152; loss_functions.py L140). *)
Definition dln (a : dual) : dual := Dual (ln (val a)) (der a / val a).

(** `torch.abs` (nn_modules.py L63, L200; loss_functions.py L140): the derivative at zero is
    zero. *)
Definition dabs (a : dual) : dual := Dual (Rabs (val a)) (der a * Rsign (val a)).

(** `torch.atan2` (one_point_spectra.py L584). *)
Definition datan2 (y x : dual) : dual :=
  Dual (atan2 (val y) (val x))
       (der y * (val x / (val x ^ 2 + val y ^ 2)) + der x * (- val y / (val x ^ 2 + val y ^ 2))).

(** `torch.relu` (loss_functions.py L179, L221) and `nn.ReLU` (nn_modules.py L136): the
    derivative at zero is zero. *)
Definition drelu (a : dual) : dual := if Rlt_dec 0 (val a) then a else const 0.

(** `.norm(dim=-1)` (one_point_spectra.py L243, L492; nn_modules.py L200). *)
Definition dnorm (l : list dual) : dual :=
  let n := sqrt (Rsum (map (fun a => val a ^ 2) l)) in
  Dual n (Rsum (map (fun a => der a * (val a / n)) l)).

(** ** Energy spectra *)

(** common.py L71. *)
Definition ad_vklike (kL : dual) : dual :=
  dmul (dpow kL (-5/3)) (dpow (ddiv kL (dsqrt (dadd (const 1) (dsq kL)))) (17/3)).

(** common.py L81. *)
Definition ad_learnable (p q kL : dual) : dual :=
  ddiv (dpowt kL p) (dpowt (dadd (const 1) (dsq kL)) q).

(** ** Network *)

(** An activation module with the derivative its backward applies (nn_modules.py L134-146,
    L176-180). *)
Record activation : Type := Activation { act_fun : R -> R; act_der : R -> R }.

(** Elementwise activation (nn_modules.py L176-180). *)
Definition dact (f : activation) (a : dual) : dual := Dual (act_fun f (val a)) (der a * act_der f (val a)).

(** `nn.ReLU()` (nn_modules.py L136). *)
Definition relu_act : activation := Activation (fun x => Rmax 0 x) (fun x => if Rlt_dec 0 x then 1 else 0).

(** Scalar product of a row of weights and an input (nn_modules.py L176-180). *)
Fixpoint ddot (r x : list dual) : dual :=
  match r, x with
  | a :: r', b :: x' => dadd (dmul a b) (ddot r' x')
  | _, _ => const 0
  end.

(** nn_modules.py L176-180: `nn.Linear` without bias. *)
Definition ad_linear (W : list (list dual)) (x : list dual) : res (list dual) :=
  if forallb (fun r => (length r =? length x)%nat) W
  then Ok (map (fun r => ddot r x) W)
  else Err RuntimeError.

(** nn_modules.py L176-180. *)
Fixpoint ad_layers (Ws : list (list (list dual))) (acts : list activation) (x : list dual) : res (list dual) :=
  match Ws with
  | [] => Err IndexError
  | [W] => ad_linear W x
  | W :: Ws' =>
      match acts with
      | [] => Err IndexError
      | f :: acts' => bind (ad_linear W x) (fun y => ad_layers Ws' acts' (map (dact f) y))
      end
  end.

(** nn_modules.py L182: residual connection. *)
Fixpoint ad_vadd (x y : list dual) : res (list dual) :=
  match x, y with
  | [], [] => Ok []
  | a :: x', b :: y' => bind (ad_vadd x' y') (fun r => Ok (dadd a b :: r))
  | _, _ => Err RuntimeError
  end.

(** nn_modules.py L61-65: `Rational.forward`; the exponents are tensors. *)
Definition ad_rational (nu x : dual) : dual :=
  let a := dsub nu (const (2/3)) in
  let b := ddiv nu (const 2) in
  let out := dabs x in
  ddiv (dpowt out a) (dpowt (dadd (const 1) (dsq out)) b).

(** nn_modules.py L200-202: `TauNet.forward`. *)
Definition ad_taunet (Ws : list (list (list dual))) (acts : list activation) (nu : dual) (k : list dual) : res dual :=
  bind (ad_layers Ws acts (map dabs k)) (fun out =>
  bind (ad_vadd (map dabs k) out) (fun a => Ok (ad_rational nu (dnorm a)))).

(** ** Spectra *)

(** All trainable parameters of a module (one_point_spectra.py L90-96, L144-150;
    nn_modules.py L44-45, L149-156); an exponent which is not trained has derivative zero. *)
Record params : Type := Params
  { pa_logL : dual; pa_logT : dual; pa_logM : dual; pa_p : dual; pa_q : dual; pa_nu : dual;
    pa_weights : list (list (list dual)) }.

(** What is fixed at construction or computed outside torch: kind of lifetime, whether the
    exponents of the energy spectrum are parameters, scipy's hypergeometric function, the
    fitted line of the Mann approximation, the activations (one_point_spectra.py L90-106,
    L433-463). *)
Record setting : Type := Setting
  { st_type : eddy_type; st_learnable : bool; st_hyp : R -> R; st_coef : R; st_icpt : R; st_acts : list activation }.

(** one_point_spectra.py L487-514; for MANN the argument leaves torch (common.py L109-113), so
    the lifetime is a constant for autograd. *)
Definition ad_lifetime (s : setting) (P : params) (k1 k2 k3 : R) : res dual :=
  let L := dexp (pa_logL P) in
  let kL := dmul L (const (sqrt (kk_of k1 k2 k3))) in
  bind
    match st_type s with
    | CONST => Ok (const 1)
    | MANN => Ok (const (mann_lifetime (st_hyp s) (val kL)))
    | MANN_APPROX => Ok (dexp (dadd (dmul (const (st_coef s)) (dln kL)) (const (st_icpt s))))
    | TWOTHIRD => Ok (dpow kL (-2/3))
    | TAUNET => bind (ad_taunet (pa_weights P) (st_acts s) (pa_nu P) [dmul (const k1) L; dmul (const k2) L; dmul (const k3) L])
                     (fun t => Ok (dadd (const 0) t))
    end
    (fun tau => Ok (dmul (dexp (pa_logT P)) tau)).

(** A tensor whose entries carry derivatives: values and derivatives
    (one_point_spectra.py L610-611). *)
Definition pack (d11 d22 d33 d13 d23 d12 : dual) : tensor6 * tensor6 :=
  (T6 (val d11) (val d22) (val d33) (val d13) (val d23) (val d12),
   T6 (der d11) (der d22) (der d33) (der d13) (der d23) (der d12)).

(** One entry (one_point_spectra.py L257). *)
Definition entry (sel : tensor6 -> R) (t : tensor6 * tensor6) : dual := Dual (sel (fst t)) (sel (snd t)).

(** one_point_spectra.py L603-605, L607-608: `torch.where(Phi < eps, eps, Phi)`. *)
Definition ad_clip_low (eps : R) (x : dual) : dual := if Rlt_dec (val x) eps then const eps else x.

(** one_point_spectra.py L606; the derivative of `torch.sign` is zero. *)
Definition ad_clip_signed (eps : R) (x : dual) : dual :=
  if Rlt_dec (Rabs (val x)) eps then const (eps * Rsign (val x)) else x.

(** one_point_spectra.py L566-611: `PowerSpectra` (the wave vector carries no derivative). *)
Definition ad_power_spectra (E0 beta : dual) (k1 k2 k3 : R) : tensor6 * tensor6 :=
  let k30 := dadd (const k3) (dmul beta (const k1)) in
  let kk0 := dadd (const (k1^2 + k2^2)) (dsq k30) in
  let kk := const (kk_of k1 k2 k3) in
  let s := const (s_of k1 k2) in
  let C1 := ddiv (dmul (dmul beta (const (k1^2)))
                       (dadd (dsub kk0 (dmul (const 2) (dsq k30))) (dmul (dmul beta (const k1)) k30)))
                 (dmul kk s) in
  let C2 := dmul (ddiv (dmul (const k2) kk0) (const (sqrt (s_of k1 k2 ^ 3))))
                 (datan2 (dmul (dmul beta (const k1)) (const (sqrt (s_of k1 k2))))
                         (dsub kk0 (dmul (dmul k30 (const k1)) beta))) in
  let zeta1 := dsub C1 (dmul (const (k2 / k1)) C2) in
  let zeta2 := dadd (ddiv (dmul C1 (const k2)) (const k1)) C2 in
  let E := ddiv E0 (const (4 * PI)) in
  let s' := const (k1^2 + k2^2) in
  pack
    (ad_clip_low eps_ops
       (dmul (ddiv E (dsq kk0))
             (dadd (dsub (dsub kk0 (const (k1^2))) (dmul (dmul (const (2 * k1)) k30) zeta1)) (dmul s' (dsq zeta1)))))
    (ad_clip_low eps_ops
       (dmul (ddiv E (dsq kk0))
             (dadd (dsub (dsub kk0 (const (k2^2))) (dmul (dmul (const (2 * k2)) k30) zeta2)) (dmul s' (dsq zeta2)))))
    (ad_clip_low eps_ops (dmul (ddiv E (dsq kk)) s'))
    (ad_clip_signed eps_ops (dmul (ddiv E (dmul kk kk0)) (dadd (dmul (const (- k1)) k30) (dmul s' zeta1))))
    (ad_clip_low eps_ops (dmul (ddiv E (dmul kk kk0)) (dadd (dmul (const (- k2)) k30) (dmul s' zeta2))))
    (ad_clip_low eps_ops
       (dmul (ddiv E (dsq kk0))
             (dadd (dsub (dsub (const (- k1 * k2)) (dmul (dmul (const k1) k30) zeta2)) (dmul (dmul (const k2) k30) zeta1))
                   (dmul (dmul s' zeta1) zeta2)))).

(** one_point_spectra.py L239-255: one entry of the tensor at one wave vector; a network whose
    shapes do not fit raises (L239), which is left to the callers. *)
Definition ad_delivered (sel : tensor6 -> R) (s : setting) (P : params) (k1 k2 k3 : R) : dual :=
  let L := dexp (pa_logL P) in
  let M := dexp (pa_logM P) in
  let beta := match ad_lifetime s P k1 k2 k3 with Ok b => b | Err _ => const 0 end in
  let k0 := dnorm [const k1; const k2; dadd (const k3) (dmul beta (const k1))] in
  let k0L := dmul L k0 in
  let spec := if st_learnable s then ad_learnable (pa_p P) (pa_q P) k0L else ad_vklike k0L in
  let E0 := dmul (dmul M (dpow L (5/3))) spec in
  entry sel (ad_power_spectra E0 beta k1 k2 k3).

(** one_point_spectra.py L257, L633-638: the spectrum at one k1; the trapezoid rule is linear
    and its nodes carry no derivative. *)
Definition ad_forward (sel : tensor6 -> R) (s : setting) (P : params) (p1 p2 : R) (N : nat) (k1 : R) : dual :=
  let g := sym_grid p1 p2 N in
  dmul (const k1) (Dual (quad23 g g (fun k2 k3 => val (ad_delivered sel s P k1 k2 k3)))
                        (quad23 g g (fun k2 k3 => der (ad_delivered sel s P k1 k2 k3)))).

(** one_point_spectra.py L257-259 and calibration.py L436, L465: the rows which enter the
    loss. *)
Definition ad_rows (s : setting) (P : params) (p1 p2 : R) (N : nat) (curves : list (tensor6 -> R)) (k1s : list R)
    : list (list dual) :=
  map (fun sel => map (ad_forward sel s P p1 p2 N) k1s) curves.

(** ** Loss *)

(** `torch.mean` (loss_functions.py L140, L179, L221, L255). *)
Definition dmean (l : list dual) : dual :=
  Dual (Rsum (map val l) / INR (length l)) (Rsum (map der l) / INR (length l)).

(** `torch.diff` (loss_functions.py L176-177, L218-219). *)
Fixpoint ddiff (l : list dual) : list dual :=
  match l with
  | a :: ((b :: _) as l') => dsub b a :: ddiff l'
  | _ => []
  end.

(** loss_functions.py L140: misfit. *)
Definition ad_mse (model : list dual) (target : list R) : dual :=
  dmean (map dsq (zip_with (fun m t => dln (dabs (ddiv m (const t)))) model target)).

(** loss_functions.py L218-219: slopes of one row. *)
Definition ad_slopes (h1 : list R) (y : list dual) : list dual :=
  zip_with (fun d h => ddiv d (const h)) (ddiff (map (fun v => dln (dabs v)) y)) h1.

(** loss_functions.py L176-177: bends of one row. *)
Definition ad_bends (h1 h2 : list R) (y : list dual) : list dual :=
  zip_with (fun d h => ddiv d (const h)) (ddiff (ad_slopes h1 y)) h2.

(** loss_functions.py L221: weighted first-order penalty. *)
Definition ad_pen1 (p : loss_params) (k1 : list R) (zref : R) (y : list (list dual)) : dual :=
  ddiv (dmul (const (alpha_pen1 p)) (dmean (map (fun v => dsq (drelu v)) (concat (map (ad_slopes (grid_h1 k1)) y)))))
       (const zref).

(** loss_functions.py L179: weighted second-order penalty. *)
Definition ad_pen2 (p : loss_params) (k1 : list R) (zref : R) (y : list (list dual)) : dual :=
  ddiv (dmul (const (alpha_pen2 p)) (dmean (map (fun v => dsq (drelu v)) (concat (map (ad_bends (grid_h1 k1) (grid_h2 k1)) y)))))
       (const (zref^2)).

(** loss_functions.py L255: regulariser of the network parameters. *)
Definition ad_reg (p : loss_params) (theta : list dual) : dual :=
  dmul (const (beta_reg p)) (dmean (map dsq theta)).

(** loss_functions.py L392-430 without coherence data: the loss; terms which are switched off
    are the constant 0. *)
Definition ad_loss (p : loss_params) (k1 : list R) (zref : R) (y : list (list dual)) (data : list (list R))
    (theta : option (list dual)) : dual :=
  dadd (dadd (dadd (ad_mse (concat y) (concat data))
                   (if Rltb 0 (alpha_pen1 p) then ad_pen1 p k1 zref y else const 0))
             (if Rltb 0 (alpha_pen2 p) then ad_pen2 p k1 zref y else const 0))
       (if Rltb 0 (beta_reg p) then match theta with Some t => ad_reg p t | None => const 0 end else const 0).
