(** Property theorems about exported fields (C132). *)

From Coq Require Import String Reals Lra Lia List Arith ZArith.
From Verif Require Import Prelude GenModel GenSpec GenProofs GenDemo VtkModel VtkSpec VtkProofs.
Import ListNotations.
Open Scope R_scope.

(** C132: after every history of `generate` calls, the exported file holds exactly the
    accumulated field, cell by cell and component by component, in a box of the size
    of the generated domain. *)
Theorem C132_export : forall stored G (gauss : G -> R * G) (seeded : Z -> G) sampler C2 (low_make : C2 -> G -> res (low_view * G)) a config w gn0 w' cs
  Lx Ly Lz lx ly lz gn,
  ga_dims a = (Lx, Ly, Lz) -> ga_levels a = (lx, ly, lz) ->
  0 < Lx -> 0 < Ly -> 0 < Lz ->
  scales_of stored a = Ok cs -> 0 < cs_L cs -> 0 < cs_Gamma cs ->
  (forall geo, shape_preserving (sampler (ga_model a) cs geo)) ->
  construct stored G seeded sampler C2 low_make a config w = Ok (gn0, w') ->
  reached gauss gn0 gn ->
  let total := s_total (gen_state G gn) in
  let file := save_to_vtk (ga_dims a) (ga_levels a) (2 ^ ly + 1) (2 ^ lz + 1) total in
  (forall i j k c x, cell_component file i j k c x <-> exists v, vector_at total i j k = Some v /\ component v c = Some x)
  /\ length (vt_wind file) = (3 * (length total * (2 ^ ly + 1) * (2 ^ lz + 1)))%nat
  /\ (exists m, box_size file = (INR m * Lx, Ly, Lz))
  /\ (forall calls, gn = snd (gen_calls G gauss calls gn0) -> all_ok (fst (gen_calls G gauss calls gn0)) -> box_size file = (INR (requested calls) * Lx, Ly, Lz)).
Proof. exact exported. Qed.
Print Assumptions C132_export.

(** C132: the file's other cell array, "grid", holds one zero per cell. *)
Theorem C132_grid_array : forall dims levels Ny Nz total, vt_grid (save_to_vtk dims levels Ny Nz total) = repeat (Fin 0) (length total * Ny * Nz).
Proof. exact grid_zero. Qed.
Print Assumptions C132_grid_array.

(** The hypotheses are met by the construction of [C37_case]; there a first call
    succeeds. *)
Example C132_case : exists cs gn w',
  scales_of (fun _ => Err FileNotFoundError) (mann_args (Some 0%Z)) = Ok cs /\ 0 < cs_L cs /\ 0 < cs_Gamma cs
  /\ construct (fun _ => Err FileNotFoundError) nat (fun _ => 0%nat) (fun _ _ _ x => x) unit (fun _ _ => Err RuntimeError)
       (mann_args (Some 0%Z)) None (World nat 7%nat 9%nat) = Ok (gn, w')
  /\ (forall n, exists f, fst (gen_call nat (fun c => (1, S c)) n demo_args gn) = Ok f)
  /\ requested [(2%Z, demo_args); ((-1)%Z, demo_args); (1%Z, demo_args)] = 3%nat.
Proof.
  destruct mann_demo as (cs & gn & w' & H1 & H2 & H3 & H4 & H5). exists cs, gn, w'. repeat (split; [assumption|]). reflexivity.
Qed.
