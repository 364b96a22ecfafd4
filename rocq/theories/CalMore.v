(** Lemmas about saving, coherence files, plot panels, schedules and gradients. *)

From Coq Require Import String Ascii Reals Lra Lia List Arith ZArith Bool Sorted Permutation.
From Coquelicot Require Import Coquelicot.
From Verif Require Import Prelude RdtModel SpectraModel SpectraProofs OpsModel OpsSpec OpsProofs OpsMore
  LossModel LossSpec LossProofs LossMore CalModel CalSpec CalProofs.
Import ListNotations.
Open Scope R_scope.

(** ** Reloading *)

Lemma fill_rows_shape : forall W V v, map (@length R) W = map (@length R) V -> fill_rows W v = fill_rows V v.
Proof.
  induction W as [|r W IH]; intros [|q V] v H; try discriminate; [reflexivity|].
  cbn [map] in H. injection H as H1 H2. cbn [fill_rows]. rewrite H1, (IH V _ H2). reflexivity.
Qed.

Lemma fill_layers_shape : forall Ws Vs v, layer_rows Ws = layer_rows Vs -> fill_layers Ws v = fill_layers Vs v.
Proof.
  induction Ws as [|W Ws IH]; intros [|V Vs] v H; try discriminate; [reflexivity|].
  unfold layer_rows in H. cbn [map] in H. injection H as H1 H2.
  cbn [fill_layers]. rewrite (fill_rows_shape W V v H1), (IH Vs _ H2). reflexivity.
Qed.

Lemma vtp_shape : forall s t v, same_architecture s t -> vector_to_parameters s v = vector_to_parameters t v.
Proof.
  intros [a b c pq net] [a' b' c' pq' net'] v [H1 H2]. cbn [mp_pq mp_net] in *.
  unfold vector_to_parameters. cbn [mp_pq mp_net].
  assert (Hnet : forall w, match net with
             | Some (Ws, nu) => let z := fill_layers Ws w in
                 Some (fst z, match nu with Some _ => Some (nth 0 (snd z) 0) | None => None end)
             | None => None end
           = match net' with
             | Some (Ws, nu) => let z := fill_layers Ws w in
                 Some (fst z, match nu with Some _ => Some (nth 0 (snd z) 0) | None => None end)
             | None => None end).
  { intros w. destruct net as [[Ws nu]|], net' as [[Vs mu]|]; try contradiction; [|reflexivity].
    destruct H2 as [E N]. cbn zeta. rewrite (fill_layers_shape Ws Vs w E).
    destruct nu, mu; try reflexivity; exfalso; [destruct N as [_ N]|destruct N as [N _]]; specialize (N eq_refl); discriminate. }
  destruct pq, pq'; try (exfalso; destruct H1 as [K1 K2]; (discriminate (K1 eq_refl) || discriminate (K2 eq_refl)));
    rewrite Hnet; reflexivity.
Qed.

Lemma concat_length_shape : forall W V : weights, map (@length R) W = map (@length R) V ->
  length (concat W) = length (concat V).
Proof.
  induction W as [|r W IH]; intros [|q V] H; try discriminate; [reflexivity|].
  cbn [map] in H. injection H as H1 H2. cbn [concat]. rewrite !app_length, H1, (IH V H2). reflexivity.
Qed.

Lemma layers_length_shape : forall Ws Vs, layer_rows Ws = layer_rows Vs ->
  length (concat (map (@concat R) Ws)) = length (concat (map (@concat R) Vs)).
Proof.
  induction Ws as [|W Ws IH]; intros [|V Vs] H; try discriminate; [reflexivity|].
  unfold layer_rows in H. cbn [map] in H. injection H as H1 H2.
  cbn [map concat]. rewrite !app_length, (concat_length_shape W V H1), (IH Vs H2). reflexivity.
Qed.

Lemma same_length : forall s t, same_architecture s t -> length (get_parameters s) = length (get_parameters t).
Proof.
  intros [a b c pq net] [a' b' c' pq' net'] [H1 H2]. cbn [mp_pq mp_net] in *. rewrite !get_parameters_layout.
  rewrite !app_length. f_equal. f_equal.
  - destruct pq as [[p q]|], pq' as [[p' q']|]; try reflexivity;
      exfalso; destruct H1 as [K1 K2]; (discriminate (K1 eq_refl) || discriminate (K2 eq_refl)).
  - destruct net as [[Ws nu]|], net' as [[Vs mu]|]; try contradiction; [|reflexivity].
    destruct H2 as [E N]. rewrite !app_length, (layers_length_shape Ws Vs E). f_equal.
    destruct nu, mu; try reflexivity; exfalso; [destruct N as [_ N]|destruct N as [N _]]; specialize (N eq_refl); discriminate.
Qed.

Lemma set_other : forall s t, same_architecture s t -> set_parameters s (get_parameters t) = (Ok tt, t).
Proof.
  intros s t H. unfold set_parameters. rewrite <- (same_length s t H), Nat.eqb_refl. cbn [negb].
  rewrite (vtp_shape s t _ H), vtp_get. reflexivity.
Qed.

Lemma reload_exact : forall NN PB LO PH IP (build : NN -> PB -> PH -> IP -> res module_params)
    (p : problem NN PB LO PH IP) m,
  build (pb_nn p) (pb_prob p) (pb_phys p) (pb_int p) = Ok m -> same_architecture m (pb_mod p) ->
  reload build (content_of p) (pb_int p) = Ok p.
Proof.
  intros NN PB LO PH IP build [nn pb lo ph ip md] m Hb Hs. unfold reload, content_of.
  cbn [pb_nn pb_prob pb_loss pb_phys pb_int pb_mod sv_nn sv_prob sv_loss sv_phys sv_params] in *.
  rewrite Hb. cbn [bind]. rewrite (set_other m md Hs). reflexivity.
Qed.

(** ** File system *)

Lemma save_ok_inv : forall A (f f' : fs A) d1 d2 t c, save_model f d1 d2 t c = (Ok tt, f') ->
  exists s, usable_dir f (save_target d1 d2) s
  /\ fs_file f' (model_path s t) = Some c
  /\ (forall p, p <> model_path s t -> fs_file f' p = fs_file f p)
  /\ (forall d, fs_dir f d = true -> fs_dir f' d = true)
  /\ fs_creatable f' = fs_creatable f.
Proof.
  intros A f f' d1 d2 t c H.
  assert (G : forall d, d = save_target d1 d2 ->
     match d with
     | DNone => (Err ValueError, f)
     | DStr s => if orb (fs_dir f s) (fs_creatable f s) then
          (Ok tt, FS (fun d => orb (String.eqb d s) (fs_dir f d)) (fs_creatable f)
                 (fun p => if String.eqb p (model_path s t) then Some c else fs_file f p))
          else (Err GenericException, f)
     | DPath s => if fs_dir f s then if orb (fs_dir f s) (fs_creatable f s) then
          (Ok tt, FS (fun d => orb (String.eqb d s) (fs_dir f d)) (fs_creatable f)
                 (fun p => if String.eqb p (model_path s t) then Some c else fs_file f p))
          else (Err GenericException, f) else (Err ValueError, f)
     end = (Ok tt, f')).
  { intros d Hd. unfold save_model, save_target in *. destruct d1; subst d; exact H. }
  specialize (G _ eq_refl).
  assert (W : forall s, (Ok tt, FS (fun d => orb (String.eqb d s) (fs_dir f d)) (fs_creatable f)
                 (fun p => if String.eqb p (model_path s t) then Some c else fs_file f p)) = (Ok tt, f') ->
     fs_file f' (model_path s t) = Some c
     /\ (forall p, p <> model_path s t -> fs_file f' p = fs_file f p)
     /\ (forall d, fs_dir f d = true -> fs_dir f' d = true)
     /\ fs_creatable f' = fs_creatable f).
  { intros s E. injection E as <-. cbn [fs_file fs_dir fs_creatable]. split.
    - rewrite String.eqb_refl. reflexivity.
    - split.
      + intros p Hp. apply String.eqb_neq in Hp. rewrite Hp. reflexivity.
      + split; [|reflexivity]. intros d ->. apply orb_true_r. }
  destruct (save_target d1 d2) as [|s|s] eqn:ED; [discriminate| |].
  - exists s. destruct (orb (fs_dir f s) (fs_creatable f s)) eqn:EO; [|discriminate].
    split; [left; split; [reflexivity|apply orb_true_iff; exact EO]|]. apply W. exact G.
  - exists s. destruct (fs_dir f s) eqn:EO; [|discriminate]. cbn [orb] in G.
    split; [right; split; [reflexivity|exact EO]|]. apply W. exact G.
Qed.

Lemma save_usable : forall A (f : fs A) d1 d2 t c s, usable_dir f (save_target d1 d2) s ->
  exists f', save_model f d1 d2 t c = (Ok tt, f') /\ fs_file f' (model_path s t) = Some c.
Proof.
  intros A f d1 d2 t c s H. destruct (save_model f d1 d2 t c) as [r f'] eqn:E.
  assert (K : r = Ok tt).
  { unfold save_model, save_target, usable_dir in *.
    destruct d1; (destruct H as [[H1 H2]|[H1 H2]]; [|]); subst; try discriminate;
      try (inversion H1; subst); try (destruct d2; inversion H1; subst);
      repeat match type of E with context [orb ?a ?b] =>
        replace (orb a b) with true in E by (symmetry; apply orb_true_iff; tauto) end;
      try rewrite H2 in E; cbn [orb] in E; inversion E; reflexivity. }
  subst r. exists f'. split; [reflexivity|]. destruct (save_ok_inv _ _ _ _ _ _ _ E) as (s' & U & F & _).
  assert (s' = s); [|subst; exact F].
  unfold usable_dir in *. destruct H as [[H _]|[H _]], U as [[U _]|[U _]]; congruence.
Qed.

Lemma save_err : forall A (f f' : fs A) d1 d2 t c e, save_model f d1 d2 t c = (Err e, f') ->
  f' = f /\ (forall s, ~ usable_dir f (save_target d1 d2) s)
  /\ (e = ValueError <-> save_target d1 d2 = DNone \/ exists s, save_target d1 d2 = DPath s).
Proof.
  intros A f f' d1 d2 t c e H.
  assert (U : forall s, ~ usable_dir f (save_target d1 d2) s).
  { intros s K. destruct (save_usable A f d1 d2 t c s K) as (g & E & _). rewrite E in H. discriminate. }
  split; [|split; [exact U|]].
  - unfold save_model in H.
    destruct d1; [destruct d2| |]; repeat match type of H with context [if ?b then _ else _] => destruct b end; inversion H; reflexivity.
  - unfold save_model, save_target in *.
    destruct d1; [destruct d2| |]; repeat match type of H with
      | context [fs_dir f ?s] => destruct (fs_dir f s); cbn [orb] in H
      | context [fs_creatable f ?s] => destruct (fs_creatable f s) end; inversion H; subst;
      (split; [intros K; try discriminate K; eauto|intros [K|[s' K]]; try discriminate K; reflexivity]).
Qed.

(** Paths determine directory and lifetime type. *)

Lemma append_assoc_s : forall a b c : string, ((a ++ b) ++ c = a ++ (b ++ c))%string.
Proof. induction a as [|x a IH]; intros b c; [reflexivity|]. cbn. rewrite IH. reflexivity. Qed.

Fixpoint to_list (s : string) : list ascii :=
  match s with EmptyString => [] | String a s' => a :: to_list s' end.

Lemma to_list_app : forall a b, to_list (a ++ b) = to_list a ++ to_list b.
Proof. induction a as [|x a IH]; intros b; [reflexivity|]. cbn. rewrite IH. reflexivity. Qed.

Lemma to_list_inj : forall a b, to_list a = to_list b -> a = b.
Proof.
  induction a as [|x a IH]; intros [|y b] H; try discriminate; [reflexivity|].
  cbn in H. injection H as -> H. f_equal. apply IH. exact H.
Qed.

Lemma path_inj : forall s1 t1 s2 t2, model_path s1 t1 = model_path s2 t2 -> s1 = s2 /\ t1 = t2.
Proof.
  intros s1 t1 s2 t2 H. apply (f_equal to_list) in H. unfold model_path in H.
  rewrite !to_list_app in H. apply (f_equal (@rev ascii)) in H.
  rewrite !rev_app_distr in H.
  set (l1 := rev (to_list s1)) in *. set (l2 := rev (to_list s2)) in *.
  assert (K : t1 = t2).
  { destruct t1, t2; try reflexivity; exfalso; cbn in H; discriminate H. }
  split; [|exact K]. subst t2.
  rewrite <- !app_assoc in H. apply app_inv_head in H. apply app_inv_head in H. apply app_inv_head in H.
  apply to_list_inj. rewrite <- (rev_involutive (to_list s1)), <- (rev_involutive (to_list s2)).
  f_equal. exact H.
Qed.

Lemma two_saves : forall A (f f1 f2 : fs A) d1 o1 t1 c1 d2 o2 t2 c2 s1 s2,
  save_model f d1 o1 t1 c1 = (Ok tt, f1) -> save_model f1 d2 o2 t2 c2 = (Ok tt, f2) ->
  usable_dir f (save_target d1 o1) s1 -> usable_dir f1 (save_target d2 o2) s2 ->
  (s1 <> s2 \/ t1 <> t2) ->
  fs_file f2 (model_path s1 t1) = Some c1 /\ fs_file f2 (model_path s2 t2) = Some c2.
Proof.
  intros A f f1 f2 d1 o1 t1 c1 d2 o2 t2 c2 s1 s2 E1 E2 U1 U2 H.
  destruct (save_ok_inv _ _ _ _ _ _ _ E1) as (a & V1 & F1 & _).
  destruct (save_ok_inv _ _ _ _ _ _ _ E2) as (b & V2 & F2 & G2 & _).
  assert (a = s1) by (unfold usable_dir in *; destruct U1 as [[? _]|[? _]], V1 as [[? _]|[? _]]; congruence).
  assert (b = s2) by (unfold usable_dir in *; destruct U2 as [[? _]|[? _]], V2 as [[? _]|[? _]]; congruence).
  subst a b. split; [|exact F2]. rewrite G2; [exact F1|].
  intros K. apply path_inj in K. destruct K. destruct H; congruence.
Qed.

Lemma overwrite : forall A (f f1 f2 : fs A) d o t c1 c2 s,
  save_model f d o t c1 = (Ok tt, f1) -> save_model f1 d o t c2 = (Ok tt, f2) -> usable_dir f (save_target d o) s ->
  forall p, fs_file f2 p = Some c1 -> c1 <> c2 -> fs_file f p = Some c1.
Proof.
  intros A f f1 f2 d o t c1 c2 s E1 E2 U p Hp Hc.
  destruct (save_ok_inv _ _ _ _ _ _ _ E1) as (a & V1 & F1 & G1 & _).
  destruct (save_ok_inv _ _ _ _ _ _ _ E2) as (b & V2 & F2 & G2 & _).
  assert (a = b) by (unfold usable_dir in *; destruct V1 as [[? _]|[? _]], V2 as [[? _]|[? _]]; congruence).
  subst b. destruct (String.string_dec p (model_path a t)) as [->|N].
  - congruence.
  - rewrite (G2 p N), (G1 p N) in Hp. exact Hp.
Qed.

(** ** Integration settings are not saved *)

Lemma spectrum_depends_on_settings : forall e p1 p2 N k1, 0 < k1 -> p1 < p2 -> (2 <= N)%nat ->
  exists p2', p2 < p2' /\ ops_forward phi11 e p1 p2' N k1 <> ops_forward phi11 e p1 p2 N k1.
Proof.
  intros e p1 p2 N k1 Hk Hp HN. set (V := ops_forward phi11 e p1 p2 N k1).
  pose proof eps_ops_pos as He.
  set (X := Rmax 1 (V / (k1 * eps_ops) + 1)).
  assert (HX : 1 <= X) by apply Rmax_l.
  assert (HV : V < k1 * (eps_ops * X)).
  { assert (K : V / (k1 * eps_ops) + 1 <= X) by apply Rmax_r.
    assert (Q : 0 < k1 * eps_ops) by (apply Rmult_lt_0_compat; assumption).
    replace V with (V / (k1 * eps_ops) * (k1 * eps_ops)) by (field; lra).
    nra. }
  set (p := Rmax (p2 + 1) (ln X / ln 10)).
  assert (P1 : p2 + 1 <= p) by apply Rmax_l.
  assert (L10 : 0 < ln 10) by (rewrite <- ln_1; apply ln_increasing; lra).
  assert (P2 : X <= Rpower 10 p).
  { assert (Q : ln X / ln 10 <= p) by apply Rmax_r.
    unfold Rpower. rewrite <- (exp_ln X) at 1 by lra.
    assert (S : ln X <= p * ln 10).
    { replace (ln X) with (ln X / ln 10 * ln 10) by (field; lra). apply Rmult_le_compat_r; lra. }
    destruct S as [S|S]; [left; apply exp_increasing; exact S|right; f_equal; exact S]. }
  exists p. split; [lra|]. apply Rgt_not_eq. apply Rlt_gt.
  eapply Rlt_le_trans; [exact HV|]. eapply Rle_trans; [|apply forward_lower; [left; reflexivity|lra|assumption|assumption]].
  apply Rmult_le_compat_l; [lra|]. apply Rmult_le_compat_l; [lra|].
  assert (T : 1 <= Rpower 10 p) by lra. nra.
Qed.

Lemma settings_not_saved : forall NN PB LO PH (env : module_params -> ops_env)
    (p : problem NN PB LO PH (R * R * nat)) p1 p2 N k1,
  pb_int p = (p1, p2, N) -> 0 < k1 -> p1 < p2 -> (2 <= N)%nat ->
  exists q, content_of q = content_of p /\ pb_mod q = pb_mod p /\
    match pb_int q with (q1, q2, M) =>
      q1 < q2 /\ (2 <= M)%nat /\
      ops_forward phi11 (env (pb_mod q)) q1 q2 M k1 <> ops_forward phi11 (env (pb_mod p)) p1 p2 N k1
    end.
Proof.
  intros NN PB LO PH env [nn pb lo ph ip md] p1 p2 N k1 Hi Hk Hp HN. cbn [pb_int pb_mod] in *. subst ip.
  destruct (spectrum_depends_on_settings (env md) p1 p2 N k1 Hk Hp HN) as (p2' & H1 & H2).
  exists (Problem nn pb lo ph (p1, p2', N) md). cbn [pb_int pb_mod]. split; [reflexivity|]. split; [reflexivity|].
  split; [lra|]. split; assumption.
Qed.

(** ** Training compares like with like *)

Lemma map_seq_nth : forall A B (f : A -> B) (l : list A) d,
  map (fun n => f (nth n l d)) (seq 0 (length l)) = map f l.
Proof.
  intros A B f l d. induction l as [|a l IH]; [reflexivity|].
  cbn [length seq map nth]. f_equal. rewrite <- seq_shift, map_map. exact IH.
Qed.

Lemma rows_match : forall nc e p1 p2 N k1s,
  (nc = 3 \/ nc = 4 \/ nc = 6)%nat ->
  data_rows (Z.of_nat nc) (length k1s) (fun n i j => ops_forward (entry i j) e p1 p2 N (nth n k1s 0))
  = Some (model_rows nc (ops_output e p1 p2 N k1s)).
Proof.
  intros nc e p1 p2 N k1s H. unfold data_rows, model_rows, ops_output.
  destruct H as [ -> |[ -> | -> ]]; cbn [Z.of_nat Z.eqb Pos.of_succ_nat Pos.succ Pos.eqb map firstn entry];
    repeat rewrite (map_seq_nth R R); reflexivity.
Qed.

(** ** Gradients *)

Lemma closure_value : forall m K p1 p2 r theta,
  fst (grad_closure m K p1 p2 r theta)
  = fst m theta + match K with Some f => f theta | None => 0 end
    + at_or_zero p1 theta + at_or_zero p2 theta + at_or_zero r theta.
Proof. intros m K [[f f']|] [[g g']|] [[h h']|] theta; destruct K; reflexivity. Qed.

Lemma closure_gradient : forall m K p1 p2 r theta,
  snd (grad_closure m K p1 p2 r theta)
  = Ok (snd m theta + slope_or_zero p1 theta + slope_or_zero p2 theta + slope_or_zero r theta).
Proof.
  intros m K [[f f']|] [[g g']|] [[h h']|] theta; destruct K; cbn; f_equal; ring.
Qed.

Lemma at_or_zero_derive : forall t theta, smooth_at t theta -> is_derive (at_or_zero t) theta (slope_or_zero t theta).
Proof. intros [[f f']|] theta H; [exact H|]. apply (is_derive_const (V := R_NormedModule) 0). Qed.

Lemma gradient_without_coherence : forall m p1 p2 r theta, smooth_at (Some m) theta ->
  smooth_at p1 theta -> smooth_at p2 theta -> smooth_at r theta ->
  exists g, snd (grad_closure m None p1 p2 r theta) = Ok g
  /\ is_derive (fun t => fst (grad_closure m None p1 p2 r t)) theta g.
Proof.
  intros m p1 p2 r theta Hm H1 H2 Hr. rewrite closure_gradient. eexists; split; [reflexivity|].
  apply (is_derive_ext (fun t => fst m t + at_or_zero p1 t + at_or_zero p2 t + at_or_zero r t)).
  { intros t. rewrite closure_value. lra. }
  apply (is_derive_plus (V := R_NormedModule)); [|apply at_or_zero_derive; exact Hr].
  apply (is_derive_plus (V := R_NormedModule)); [|apply at_or_zero_derive; exact H2].
  apply (is_derive_plus (V := R_NormedModule)); [|apply at_or_zero_derive; exact H1].
  destruct m; exact Hm.
Qed.

Lemma gradient_with_coherence : forall m K K' p1 p2 r theta, smooth_at (Some m) theta ->
  smooth_at p1 theta -> smooth_at p2 theta -> smooth_at r theta -> is_derive K theta K' -> K' <> 0 ->
  exists g, snd (grad_closure m (Some K) p1 p2 r theta) = Ok g
  /\ ~ is_derive (fun t => fst (grad_closure m (Some K) p1 p2 r t)) theta g
  /\ is_derive (fun t => fst (grad_closure m (Some K) p1 p2 r t)) theta (g + K').
Proof.
  intros m K K' p1 p2 r theta Hm H1 H2 Hr HK H0.
  destruct (gradient_without_coherence m p1 p2 r theta Hm H1 H2 Hr) as (g & G & D).
  exists g. split; [rewrite <- G, !closure_gradient; reflexivity|].
  assert (HD : is_derive (fun t => fst (grad_closure m (Some K) p1 p2 r t)) theta (g + K')).
  { apply (is_derive_ext (fun t => fst (grad_closure m None p1 p2 r t) + K t)).
    { intros t. rewrite !closure_value. lra. }
    apply (is_derive_plus (V := R_NormedModule)); assumption. }
  split; [|exact HD]. intros HB. apply is_derive_unique in HB. apply is_derive_unique in HD.
  rewrite HB in HD. lra.
Qed.

(** ** Model coherence on the frequency axis *)

Lemma mask_law : forall (f : R -> R) (test : R -> bool) (d : R) l,
  mask_fill (map test l) d (map f (mask_select (map test l) l)) = map (fun x => if test x then f x else d) l.
Proof.
  intros f test d l. induction l as [|x l IH]; [reflexivity|]. cbn [map mask_select].
  destruct (test x); cbn [mask_fill map]; rewrite IH; reflexivity.
Qed.

Lemma coherence_per_frequency : forall coh factor U freqs,
  compute_model_coherence coh factor U freqs
  = map (fun f => if Rltb (/ 1000000) f then coh (factor * f / U) else 1) freqs.
Proof.
  intros coh factor U freqs. unfold compute_model_coherence.
  rewrite map_map. apply (mask_law (fun f => coh (factor * f / U))).
Qed.

(** ** Schedules *)

Lemma three_phase_range : forall n e, 1/10 <= three_phase n e <= 2.
Proof.
  intros n e. unfold three_phase. pose proof (pos_INR n) as Hn. pose proof (pos_INR e) as He.
  destruct (Rlt_dec _ _) as [H1|H1]; [lra|]. destruct (Rlt_dec _ _) as [H2|H2]; [|lra].
  assert (N : 0 < INR n * (4/10)) by lra.
  assert (A : 0 <= (INR e - INR n * (3/10)) / (INR n * (4/10))) by (apply Rmult_le_pos; [lra|left; apply Rinv_0_lt_compat; lra]).
  assert (B : (INR e - INR n * (3/10)) / (INR n * (4/10)) <= 1).
  { apply (Rmult_le_reg_r (INR n * (4/10))); [lra|]. unfold Rdiv. rewrite Rmult_assoc, Rinv_l by lra. lra. }
  lra.
Qed.

Lemma three_phase_decreases : forall n e e', (e <= e')%nat -> three_phase n e' <= three_phase n e.
Proof.
  intros n e e' H. apply le_INR in H. pose proof (three_phase_range n e) as R1. pose proof (three_phase_range n e') as R2.
  revert R1 R2. unfold three_phase. pose proof (pos_INR n) as Hn. pose proof (pos_INR e) as He.
  destruct (Rlt_dec (INR e) _) as [A1|A1]; [intros; lra|].
  destruct (Rlt_dec (INR e') (INR n * (3/10))) as [B1|B1]; [intros; lra|].
  destruct (Rlt_dec (INR e) (INR n * (7/10))) as [A2|A2]; destruct (Rlt_dec (INR e') (INR n * (7/10))) as [B2|B2]; intros; try lra.
  assert (N : 0 < INR n * (4/10)) by lra.
  assert ((INR e - INR n * (3/10)) / (INR n * (4/10)) <= (INR e' - INR n * (3/10)) / (INR n * (4/10))); [|lra].
  apply Rmult_le_compat_r; [left; apply Rinv_0_lt_compat; lra|lra].
Qed.

Lemma history_inert : forall evals, fold_left (fun h v => record_history agg_attrs h (fst v) (snd v)) evals ([], []) = ([], []).
Proof. intros evals. induction evals as [|v evals IH]; [reflexivity|]. cbn [fold_left]. exact IH. Qed.

Lemma adaptive_inert : forall evals epoch,
  let h := fold_left (fun h v => record_history agg_attrs h (fst v) (snd v)) evals ([], []) in
  adaptive_factor (fst h) (snd h) epoch = 1.
Proof. intros evals epoch. cbv zeta. rewrite history_inert. reflexivity. Qed.

Lemma adaptive_bounded : forall ops coh epoch, (10 <= epoch)%nat -> 0 < adaptive_factor ops coh epoch <= 1.
Proof.
  intros ops coh epoch H. unfold adaptive_factor. destruct (_ <? _)%nat; [lra|].
  destruct (Rlt_dec _ _); [lra|]. destruct (Rlt_dec _ _); [lra|].
  replace (Z.of_nat epoch - 10)%Z with (Z.of_nat (epoch - 10)) by lia.
  rewrite <- pow_powerRZ. split; [apply pow_lt; lra|].
  induction (epoch - 10)%nat as [|k IH]; cbn [pow]; [lra|].
  assert (0 < (95/100)^k) by (apply pow_lt; lra). lra.
Qed.

(** ** Plot panels *)

Lemma panels_given : forall nc i, (nc = 3 \/ nc = 4 \/ nc = 6)%Z -> (i < 6)%nat ->
  panel_data (plot_data_order_given nc) nc i
  = if (Z.of_nat i <? nc)%Z then nth_error model_order i else None.
Proof.
  intros nc i H Hi. destruct H as [ -> |[ -> | -> ]];
    do 6 (destruct i as [|i]; [reflexivity|]); lia.
Qed.

Lemma panels_stored : forall nc i, (nc = 3 \/ nc = 4)%Z -> (i < 6)%nat ->
  panel_data (plot_data_order_stored nc) nc i
  = if (Z.of_nat i <? nc)%Z then nth_error model_order i else None.
Proof.
  intros nc i H Hi. destruct H as [ -> | -> ];
    do 6 (destruct i as [|i]; [reflexivity|]); lia.
Qed.

Lemma panels_stored_swapped :
  panel_data (plot_data_order_stored 6) 6 4 = Some (X1, X2) /\ nth_error model_order 4 = Some (X2, X3)
  /\ panel_data (plot_data_order_stored 6) 6 5 = Some (X2, X3) /\ nth_error model_order 5 = Some (X1, X2)
  /\ forall i, (i < 4)%nat -> panel_data (plot_data_order_stored 6) 6 i = nth_error model_order i.
Proof.
  repeat split. intros i Hi. do 4 (destruct i as [|i]; [reflexivity|]). lia.
Qed.

(** ** Selected separations *)

Lemma sep_indices_valid : forall n, (1 <= n)%nat ->
  (forall i, In i (sep_indices n) -> (i < n)%nat)
  /\ Sorted le (sep_indices n)
  /\ length (sep_indices n) = 4%nat
  /\ nth 0 (sep_indices n) n = 0%nat /\ nth 3 (sep_indices n) n = (n - 1)%nat
  /\ ((4 <= n)%nat -> NoDup (sep_indices n)).
Proof.
  intros n Hn. unfold sep_indices. cbn [seq map].
  set (a := (1 * (n - 1) / 3)%nat). set (b := (2 * (n - 1) / 3)%nat). set (c := (3 * (n - 1) / 3)%nat).
  assert (Ha : (3 * a <= n - 1 < 3 * a + 3)%nat).
  { pose proof (Nat.div_mod (1 * (n - 1)) 3 ltac:(lia)). pose proof (Nat.mod_upper_bound (1 * (n - 1)) 3 ltac:(lia)). unfold a. lia. }
  assert (Hb : (3 * b <= 2 * (n - 1) < 3 * b + 3)%nat).
  { pose proof (Nat.div_mod (2 * (n - 1)) 3 ltac:(lia)). pose proof (Nat.mod_upper_bound (2 * (n - 1)) 3 ltac:(lia)). unfold b. lia. }
  assert (Hc : c = (n - 1)%nat).
  { unfold c. rewrite Nat.mul_comm. apply Nat.div_mul. lia. }
  assert (H0 : (0 * (n - 1) / 3)%nat = 0%nat) by reflexivity. rewrite H0, Hc.
  split; [|split; [|split; [reflexivity|split; [reflexivity|split; [reflexivity|]]]]].
  - intros i Hi. cbn [In] in Hi. lia.
  - repeat constructor; lia.
  - intros H4. repeat constructor; cbn [In]; lia.
Qed.

(** ** Coherence files *)

Lemma insert_key_In : forall k l x, In x (insert_key k l) <-> x = k \/ In x l.
Proof.
  intros k l x. induction l as [|a l IH]; cbn [insert_key In].
  - split; intros [H|H]; auto.
  - destruct (k <? a)%Z eqn:E1; [cbn [In]; intuition|].
    destruct (k =? a)%Z eqn:E2; [apply Z.eqb_eq in E2; subst; cbn [In]; intuition|].
    cbn [In]. rewrite IH. intuition.
Qed.

Lemma insert_key_sorted : forall k l, StronglySorted Z.lt l -> StronglySorted Z.lt (insert_key k l).
Proof.
  intros k l H. induction H as [|a l Hl IH Ha]; cbn [insert_key]; [repeat constructor|].
  destruct (k <? a)%Z eqn:E1; [apply Z.ltb_lt in E1|apply Z.ltb_ge in E1].
  - constructor; [constructor; assumption|]. constructor; [exact E1|].
    eapply Forall_impl; [|exact Ha]. intros z Hz. cbn in Hz. lia.
  - destruct (k =? a)%Z eqn:E2; [constructor; assumption|apply Z.eqb_neq in E2].
    constructor; [exact IH|]. apply Forall_forall. intros x Hx. apply insert_key_In in Hx.
    rewrite Forall_forall in Ha. destruct Hx as [ -> |Hx]; [lia|apply Ha; exact Hx].
Qed.

Lemma keys_In : forall l x, In x (keys l) <-> In x l.
Proof.
  intros l x. unfold keys. induction l as [|a l IH]; [reflexivity|]. cbn [fold_right In].
  rewrite insert_key_In, IH. intuition.
Qed.

Lemma keys_sorted : forall l, StronglySorted Z.lt (keys l).
Proof. intros l. unfold keys. induction l as [|a l IH]; [constructor|]. apply insert_key_sorted. exact IH. Qed.

Lemma ss_nodup : forall l, StronglySorted Z.lt l -> NoDup l.
Proof.
  intros l H. induction H as [|a l Hl IH Ha]; constructor; [|exact IH].
  intros K. rewrite Forall_forall in Ha. specialize (Ha a K). lia.
Qed.

Lemma ss_unique : forall l m, StronglySorted Z.lt l -> StronglySorted Z.lt m -> (forall x, In x l <-> In x m) -> l = m.
Proof.
  induction l as [|a l IH]; intros [|b m] Hl Hm H.
  - reflexivity.
  - exfalso. apply (proj2 (H b)). left. reflexivity.
  - exfalso. apply (proj1 (H a)). left. reflexivity.
  - apply StronglySorted_inv in Hl. apply StronglySorted_inv in Hm. destruct Hl as [Hl Fa], Hm as [Hm Fb].
    rewrite Forall_forall in Fa, Fb.
    assert (a = b).
    { destruct (proj1 (H a) (or_introl eq_refl)) as [E|E]; [congruence|].
      destruct (proj2 (H b) (or_introl eq_refl)) as [E'|E']; [congruence|].
      specialize (Fa b E'). specialize (Fb a E). lia. }
    subst b. f_equal. apply IH; try assumption. intros x. split; intros Hx.
    + destruct (proj1 (H x) (or_intror Hx)) as [E|E]; [|exact E]. subst x. specialize (Fa a Hx). lia.
    + destruct (proj2 (H x) (or_intror Hx)) as [E|E]; [|exact E]. subst x. specialize (Fb a Hx). lia.
Qed.

Lemma ss_rank : forall l k a, StronglySorted Z.lt l -> nth_error l a = Some k ->
  forall x, In x (firstn a l) <-> In x l /\ (x < k)%Z.
Proof.
  induction l as [|b l IH]; intros k a Hl Hk x; [destruct a; discriminate|].
  apply StronglySorted_inv in Hl. destruct Hl as [Hl Fb]. rewrite Forall_forall in Fb.
  destruct a as [|a]; cbn [nth_error firstn] in *.
  - injection Hk as ->. split; [intros []|]. intros [[E|E] Lt]; [lia|]. specialize (Fb x E). lia.
  - cbn [In]. rewrite (IH k a Hl Hk). pose proof (Fb k (nth_error_In _ _ Hk)) as Hbk.
    split.
    + intros [E|[E1 E2]]; [subst; split; [left; reflexivity|exact Hbk]|split; [right; exact E1|exact E2]].
    + intros [[E|E] Lt]; [left; exact E|right; split; assumption].
Qed.

Lemma rank_nth : forall k l a, rank_of k l a <-> nth_error (keys l) a = Some k.
Proof.
  intros k l a. split.
  - intros [Hk (small & N & Len & Hs)].
    apply keys_In in Hk. apply In_nth_error in Hk. destruct Hk as [b Hb].
    assert (E : length (firstn b (keys l)) = length small).
    { apply Permutation_length. apply NoDup_Permutation.
      - pose proof (ss_nodup _ (keys_sorted l)) as ND. rewrite <- (firstn_skipn b) in ND.
        clear - ND. induction (firstn b (keys l)) as [|x m IH]; [constructor|].
        cbn [app] in ND. inversion ND; subst. constructor; [|apply IH; assumption].
        intros K. apply H1. apply in_or_app. left. exact K.
      - exact N.
      - intros x. rewrite (ss_rank _ _ _ (keys_sorted l) Hb x), Hs, keys_In. reflexivity. }
    rewrite firstn_length in E. assert (b < length (keys l))%nat by (apply nth_error_Some; congruence).
    replace a with b by lia. exact Hb.
  - intros H. split; [apply keys_In; eapply nth_error_In; exact H|].
    exists (firstn a (keys l)). assert (a < length (keys l))%nat by (apply nth_error_Some; congruence).
    split; [|split].
    + pose proof (ss_nodup _ (keys_sorted l)) as ND. rewrite <- (firstn_skipn a) in ND.
      clear - ND. induction (firstn a (keys l)) as [|x m IH]; [constructor|].
      cbn [app] in ND. inversion ND; subst. constructor; [|apply IH; assumption].
      intros K. apply H1. apply in_or_app. left. exact K.
    + rewrite firstn_length. lia.
    + intros x. rewrite (ss_rank _ _ _ (keys_sorted l) H x), keys_In. reflexivity.
Qed.

Lemma flat_length : forall A B C (f : A -> B -> C) is js,
  length (flat_map (fun i => map (f i) js) is) = (length is * length js)%nat.
Proof.
  intros A B C f is js. induction is as [|x is IH]; [reflexivity|].
  cbn [flat_map length]. rewrite app_length, map_length, IH. lia.
Qed.

Lemma nth_error_flat3 : forall A B C (f : A -> B -> C) is js a b i j,
  nth_error is a = Some i -> nth_error js b = Some j ->
  nth_error (flat_map (fun i => map (f i) js) is) (a * length js + b) = Some (f i j).
Proof.
  intros A B C f is js. induction is as [|x is IH]; intros a b i j Hi Hj; [destruct a; discriminate|].
  assert (Hb : (b < length js)%nat) by (apply nth_error_Some; congruence).
  destruct a as [|a]; cbn [nth_error flat_map] in *.
  - injection Hi as ->. cbn [Nat.mul Nat.add]. rewrite nth_error_app1 by (rewrite map_length; exact Hb).
    rewrite nth_error_map, Hj. reflexivity.
  - rewrite nth_error_app2 by (rewrite map_length; lia). rewrite map_length.
    replace (S a * length js + b - length js)%nat with (a * length js + b)%nat by lia. apply IH; assumption.
Qed.

Lemma load_separation_major : forall is js val rows,
  StronglySorted Z.lt is -> StronglySorted Z.lt js -> is <> [] -> js <> [] -> separation_major is js val rows ->
  exists g, load_coherence rows = Ok (length is, length js, g)
  /\ forall r a b, In r rows -> cell_of rows r a b -> g a b = Fin (cr_val r).
Proof.
  intros is js val rows Hi Hj Ni Nj H. unfold separation_major in H.
  assert (Ki : keys (map cr_i rows) = is).
  { apply ss_unique; [apply keys_sorted|exact Hi|]. intros x. rewrite keys_In.
    replace (map cr_i rows) with (map (fun t => fst (fst t)) (map (fun r => (cr_i r, cr_j r, cr_val r)) rows))
      by (rewrite map_map; reflexivity).
    rewrite H. split.
    - intros K. apply in_map_iff in K. destruct K as ([[i j] v] & E & K). cbn in E. subst x.
      apply in_flat_map in K. destruct K as (i' & I1 & I2). apply in_map_iff in I2. destruct I2 as (j' & E & _).
      injection E as <- _ _. exact I1.
    - intros K. destruct js as [|j0 js]; [congruence|]. apply in_map_iff. exists (x, j0, val x j0). split; [reflexivity|].
      apply in_flat_map. exists x. split; [exact K|]. left. reflexivity. }
  assert (Kj : keys (map cr_j rows) = js).
  { apply ss_unique; [apply keys_sorted|exact Hj|]. intros x. rewrite keys_In.
    replace (map cr_j rows) with (map (fun t => snd (fst t)) (map (fun r => (cr_i r, cr_j r, cr_val r)) rows))
      by (rewrite map_map; reflexivity).
    rewrite H. split.
    - intros K. apply in_map_iff in K. destruct K as ([[i j] v] & E & K). cbn in E. subst x.
      apply in_flat_map in K. destruct K as (i' & I1 & I2). apply in_map_iff in I2. destruct I2 as (j' & E & I3).
      injection E as _ <- _. exact I3.
    - intros K. destruct is as [|i0 is]; [congruence|]. apply in_map_iff. exists (i0, x, val i0 x). split; [reflexivity|].
      apply in_flat_map. exists i0. split; [left; reflexivity|]. apply in_map_iff. exists x. split; [reflexivity|exact K]. }
  unfold load_coherence. rewrite Ki, Kj.
  assert (Len : length rows = (length is * length js)%nat).
  { rewrite <- (map_length (fun r => (cr_i r, cr_j r, cr_val r))), H. apply flat_length. }
  rewrite Len, Nat.eqb_refl. eexists. split; [reflexivity|].
  intros r a b Hr [Ra Rb]. apply rank_nth in Ra. apply rank_nth in Rb. rewrite Ki in Ra. rewrite Kj in Rb.
  pose proof (nth_error_flat3 Z Z _ (fun i j => (i, j, val i j)) is js a b _ _ Ra Rb) as E.
  cbv beta in E. rewrite <- H, nth_error_map in E. destruct (nth_error rows (a * length js + b)) as [r'|] eqn:E'; [|discriminate].
  cbn [option_map] in E. injection E as _ _ Ev. f_equal. rewrite Ev.
  assert (Er : In (cr_i r, cr_j r, cr_val r) (flat_map (fun i => map (fun j => (i, j, val i j)) js) is)).
  { rewrite <- H. apply in_map_iff. exists r. split; [reflexivity|exact Hr]. }
  apply in_flat_map in Er. destruct Er as (i' & _ & I2). apply in_map_iff in I2. destruct I2 as (j' & E & _).
  injection E as -> -> <-. reflexivity.
Qed.

Lemma zero_based_keys : forall l n, zero_based l n -> keys l = map Z.of_nat (seq 0 n).
Proof.
  intros l n H. apply ss_unique; [apply keys_sorted| |].
  - apply (ss_map _ _ lt Z.lt); [intros; lia|apply ss_seq].
  - intros x. rewrite keys_In. rewrite (H x). split.
    + intros K. apply in_map_iff. exists (Z.to_nat x). split; [lia|]. apply in_seq. lia.
    + intros K. apply in_map_iff in K. destruct K as (m & <- & K). apply in_seq in K. lia.
Qed.

Lemma nth_error_seq_Z : forall n a z, nth_error (map Z.of_nat (seq 0 n)) a = Some z <-> z = Z.of_nat a /\ (a < n)%nat.
Proof.
  intros n a z. rewrite nth_error_map. destruct (lt_dec a n) as [L|L].
  - replace (nth_error (seq 0 n) a) with (Some a).
    + cbn [option_map]. split; [intros E; injection E as <-; auto|intros [ -> _]; reflexivity].
    + symmetry. rewrite (nth_error_nth' _ 0%nat) by (rewrite seq_length; exact L). rewrite seq_nth by exact L. reflexivity.
  - replace (nth_error (seq 0 n) a) with (@None nat).
    + cbn. split; [discriminate|lia].
    + symmetry. apply nth_error_None. rewrite seq_length. lia.
Qed.

Lemma fill_all : forall ns nf rows g0,
  (forall r, In r rows -> (0 <= cr_i r < Z.of_nat ns)%Z /\ (0 <= cr_j r < Z.of_nat nf)%Z) ->
  NoDup (map (fun r => (cr_i r, cr_j r)) rows) ->
  exists g, fold_left (fill_row ns nf) rows (Ok g0) = Ok g
  /\ (forall r, In r rows -> g (Z.to_nat (cr_i r)) (Z.to_nat (cr_j r)) = Fin (cr_val r))
  /\ (forall a b, ~ In (Z.of_nat a, Z.of_nat b) (map (fun r => (cr_i r, cr_j r)) rows) -> g a b = g0 a b).
Proof.
  intros ns nf rows. induction rows as [|r rows IH]; intros g0 Hb Hd.
  - exists g0. split; [reflexivity|]. split; [intros r []|reflexivity].
  - cbn [fold_left]. destruct (Hb r (or_introl eq_refl)) as [Bi Bj].
    cbn [map] in Hd. inversion Hd as [|x l Hnot Hd']; subst.
    set (g1 := fun a b => if andb (a =? Z.to_nat (cr_i r))%nat (b =? Z.to_nat (cr_j r))%nat then Fin (cr_val r) else g0 a b).
    assert (E : fill_row ns nf (Ok g0) r = Ok g1).
    { unfold fill_row. cbn [bind]. unfold py_index.
      replace (cr_i r <? Z.of_nat ns)%Z with true by (symmetry; apply Z.ltb_lt; lia).
      replace (cr_j r <? Z.of_nat nf)%Z with true by (symmetry; apply Z.ltb_lt; lia).
      replace (0 <=? cr_i r)%Z with true by (symmetry; apply Z.leb_le; lia).
      replace (0 <=? cr_j r)%Z with true by (symmetry; apply Z.leb_le; lia).
      cbn [andb]. reflexivity. }
    rewrite E. destruct (IH g1) as (g & G1 & G2 & G3).
    + intros r' Hr'. apply Hb. right. exact Hr'.
    + exact Hd'.
    + exists g. split; [exact G1|]. split.
      * intros r' [<-|Hr']; [|apply G2; exact Hr'].
        rewrite G3.
        -- unfold g1. rewrite !Nat.eqb_refl. reflexivity.
        -- rewrite !Z2Nat.id by lia. exact Hnot.
      * intros a b Hab. cbn [map In] in Hab. rewrite G3 by tauto. unfold g1.
        destruct (Nat.eqb_spec a (Z.to_nat (cr_i r))) as [Ea|Ea]; [|reflexivity].
        destruct (Nat.eqb_spec b (Z.to_nat (cr_j r))) as [Eb|Eb]; [|reflexivity].
        exfalso. apply Hab. left. subst a b. rewrite !Z2Nat.id by lia. reflexivity.
Qed.

Lemma load_incomplete : forall rows ns nf,
  zero_based (map cr_i rows) ns -> zero_based (map cr_j rows) nf ->
  NoDup (map (fun r => (cr_i r, cr_j r)) rows) -> length rows <> (ns * nf)%nat ->
  exists g, load_coherence rows = Ok (ns, nf, g)
  /\ (forall r a b, In r rows -> cell_of rows r a b -> g a b = Fin (cr_val r))
  /\ (forall a b, (forall r, In r rows -> ~ cell_of rows r a b) -> g a b = NaN).
Proof.
  intros rows ns nf Hi Hj Hd Hl. unfold load_coherence.
  pose proof (zero_based_keys _ _ Hi) as Ki. pose proof (zero_based_keys _ _ Hj) as Kj.
  rewrite Ki, Kj, !map_length, !seq_length.
  apply Nat.eqb_neq in Hl. rewrite Hl.
  destruct (fill_all ns nf rows (fun _ _ => NaN)) as (g & G1 & G2 & G3).
  - intros r Hr. split; [apply Hi|apply Hj]; apply in_map; exact Hr.
  - exact Hd.
  - exists g. split; [etransitivity; [apply (f_equal (fun z => bind z (fun g => Ok (ns, nf, g)))); exact G1|reflexivity]|].
    assert (Cell : forall r a b, In r rows -> (cell_of rows r a b <-> cr_i r = Z.of_nat a /\ cr_j r = Z.of_nat b)).
    { intros r a b Hr. unfold cell_of. rewrite !rank_nth, Ki, Kj, !nth_error_seq_Z.
      assert (Bi : (0 <= cr_i r < Z.of_nat ns)%Z) by (apply Hi; apply in_map; exact Hr).
      assert (Bj : (0 <= cr_j r < Z.of_nat nf)%Z) by (apply Hj; apply in_map; exact Hr).
      lia. }
    split.
    + intros r a b Hr Hc. apply (Cell r a b Hr) in Hc. destruct Hc as [Ea Eb].
      rewrite <- (G2 r Hr), Ea, Eb, !Nat2Z.id. reflexivity.
    + intros a b Hn. apply G3. intros K. apply in_map_iff in K. destruct K as (r & E & Hr).
      injection E as E1 E2. apply (Hn r Hr). apply Cell; auto.
Qed.

Lemma find_key : forall (key : crow -> Z) (val : crow -> R) rows r,
  (forall r r', In r rows -> In r' rows -> key r = key r' -> val r = val r') -> In r rows ->
  first_of key val rows (key r) = val r.
Proof.
  intros key val rows r H Hr. unfold first_of. destruct (find _ rows) as [r'|] eqn:E.
  - apply find_some in E. destruct E as [I E]. apply Z.eqb_eq in E. apply H; assumption.
  - exfalso. pose proof (find_none _ _ E r Hr) as K. cbn in K. rewrite Z.eqb_refl in K. discriminate.
Qed.

Lemma axes_match : forall rows r a b, consistent rows -> In r rows -> cell_of rows r a b ->
  nth_error (fst (coherence_axes rows)) a = Some (cr_sep r) /\ nth_error (snd (coherence_axes rows)) b = Some (cr_freq r).
Proof.
  intros rows r a b Hc Hr [Ra Rb]. apply rank_nth in Ra. apply rank_nth in Rb. unfold coherence_axes. cbn [fst snd].
  rewrite !nth_error_map, Ra, Rb. cbn [option_map]. split; f_equal; apply find_key; try exact Hr.
  - intros x y Hx Hy. apply (Hc x y Hx Hy).
  - intros x y Hx Hy. apply (Hc x y Hx Hy).
Qed.

Definition freq_major_rows : list crow :=
  [CRow 0 0 5 (1/10) 10; CRow 1 0 7 (1/10) 20; CRow 0 1 5 (2/10) 30; CRow 1 1 7 (2/10) 40].

Definition one_based_rows : list crow :=
  [CRow 1 1 5 (1/10) 10; CRow 1 2 5 (2/10) 20; CRow 2 1 7 (1/10) 30].

Lemma freq_major_wrong :
  exists r a b g, In r freq_major_rows /\ consistent freq_major_rows
  /\ load_coherence freq_major_rows = Ok (2%nat, 2%nat, g)
  /\ cell_of freq_major_rows r a b /\ g a b = Fin 30 /\ cr_val r = 20.
Proof.
  exists (CRow 1 0 7 (1/10) 20), 1%nat, 0%nat. eexists. split; [right; left; reflexivity|].
  split.
  { intros r r' H H'. cbn [freq_major_rows In] in H, H'.
    repeat (destruct H as [<-|H]; [repeat (destruct H' as [<-|H']; [cbn; split; intros E; (reflexivity || discriminate E)|]); contradiction|]).
    contradiction. }
  split; [reflexivity|]. split; [|split; reflexivity].
  split; apply rank_nth; reflexivity.
Qed.

Lemma one_based_wrong :
  exists r g, In r one_based_rows /\ load_coherence one_based_rows = Ok (2%nat, 2%nat, g)
  /\ cell_of one_based_rows r 0 0 /\ g 0%nat 0%nat = NaN /\ g 1%nat 1%nat = Fin (cr_val r).
Proof.
  exists (CRow 1 1 5 (1/10) 10). eexists. split; [left; reflexivity|].
  split; [reflexivity|]. split; [|split; reflexivity]. split; apply rank_nth; reflexivity.
Qed.

(** ** A small calibration *)

Definition demo_cfg : taunet_cfg (list R -> list R) := TauCfg [2%nat] [(3, 2)%nat; (2, 3)%nat] [] true (-1/3).
Definition demo_net : list weights * option R := ([[[1; 2; 3]; [4; 5; 6]]; [[7; 8]; [9; 10]; [11; 12]]], Some (-1/3)).
Definition demo : module_params := MP 1 2 3 (Some (4, 2)) (Some demo_net).

(** Perfect data, no penalties. *)
Definition easy_args : eval_args := EvalArgs [[1; 2]] [[1; 2]] ThNone 0 None.
Definition easy (n : nat) : train_cfg :=
  TCfg (LossParams 0 0 0 0) [1; 2] 40 1 n 1 (fun _ => easy_args) (fun _ _ => easy_args).

(** An optimiser that evaluates the closure once and keeps the parameters. *)
Definition lazy_opt (_ : nat) (s : tstate) : strategy :=
  Ask (get_parameters (ts_mod s)) (fun _ => Finish (get_parameters (ts_mod s))).

Lemma easy_terms : eval_terms (LossParams 0 0 0 0) [1; 2] 40 easy_args = Ok (Fin 0, Fin 0, Fin 0, Fin 0, Fin 0).
Proof.
  unfold eval_terms, easy_args. cbn [ea_y ea_data ea_theta ea_coh alpha_pen1 alpha_pen2 beta_reg concat app bind].
  destruct (mse_proper [1; 2] [1; 2]) as (v & E & _ & Z); try reflexivity; try discriminate; try (repeat constructor; lra).
  rewrite E. assert (v = 0) by (apply Z; repeat constructor). subst v. cbn [bind].
  replace (Rltb 0 0) with false; [reflexivity|]. symmetry. unfold Rltb. destruct (Rlt_dec 0 0); [lra|reflexivity].
Qed.

Lemma easy_eval : forall s, exists s', agg_eval (LossParams 0 0 0 0) [1; 2] 40 s easy_args = (Ok (Fin 0), s').
Proof.
  intros s. unfold agg_eval. rewrite easy_terms. eexists. cbn [xadd]. f_equal. f_equal. f_equal. ring.
Qed.

Lemma easy_closure : forall n v s, exists s', closure_eval (easy n) v s = Ok s' /\ ts_mod s' = vector_to_parameters (ts_mod s) v /\ ts_loss s' = Fin 0.
Proof.
  intros n v s. unfold closure_eval. cbn [easy tg_loss tg_k1 tg_zref tg_args].
  destruct (easy_eval (ts_agg s)) as (a & ->). eexists. split; [reflexivity|]. split; reflexivity.
Qed.

Lemma lazy_step : forall n e s, exists s', run_strategy (easy n) (lazy_opt e s) s = Ok s' /\ ts_mod s' = ts_mod s /\ ts_loss s' = Fin 0.
Proof.
  intros n e s. unfold lazy_opt. cbn [run_strategy].
  destruct (easy_closure n (get_parameters (ts_mod s)) s) as (s1 & -> & M & L). eexists. split; [reflexivity|].
  cbn [ts_mod ts_loss]. rewrite M, vtp_get, vtp_get. split; [reflexivity|exact L].
Qed.

Lemma easy_run : exists s, calibrate (easy 5) lazy_opt (fun _ r => r) demo = (Ok ([exp 1; exp 2; exp 3; 4; 2], s), [Fin 0]).
Proof.
  unfold calibrate. cbn [easy tg_loss tg_k1 tg_zref tg_args0 tg_nepochs].
  destruct (easy_eval agg_init) as (a & ->). cbn [train].
  set (s0 := TS _ _ _ _ _ _). destruct (lazy_step 5 1 s0) as (s1 & E & M & L). fold (easy 5). rewrite E.
  cbn [ts_mod ts_loss tg_tol easy]. rewrite M, L. cbn [s0 ts_mod mp_pq demo xfinite negb xltb].
  replace (Rltb 0 1) with true; [|symmetry; unfold Rltb; destruct (Rlt_dec 0 1); [reflexivity|lra]].
  cbn [fst snd bind ts_mod calibrated_params]. eexists. reflexivity.
Qed.

Lemma easy_attr : forall n s e, run_strategy (easy 5) (lazy_opt n s) s = Err e -> e <> AttributeError.
Proof. intros n s e H. destruct (lazy_step 5 n s) as (s' & E & _). rewrite E in H. discriminate. Qed.

Lemma loaded_cells_false :
  ~ (forall rows r a b ns nf g, consistent rows -> In r rows -> load_coherence rows = Ok (ns, nf, g) ->
     cell_of rows r a b -> g a b = Fin (cr_val r)).
Proof.
  intros H. destruct freq_major_wrong as (r & a & b & g & I & C & L & Cell & E & V).
  specialize (H _ r a b _ _ g C I L Cell). rewrite E, V in H. injection H as H. lra.
Qed.

Lemma adaptive_reacts_never :
  ~ (exists evals epoch,
     let h := fold_left (fun h v => record_history agg_attrs h (fst v) (snd v)) evals ([], []) in
     adaptive_factor (fst h) (snd h) epoch <> 1).
Proof. intros (evals & epoch & H). apply H. apply (adaptive_inert evals epoch). Qed.

Lemma adaptive_halves : forall ops coh epoch, (10 <= length ops)%nat ->
  10 < Rmean (last5 ops) / (Rmean (last5 coh) + / 100000000) ->
  adaptive_factor ops coh epoch = 1/2.
Proof.
  intros ops coh epoch H1 H2. unfold adaptive_factor.
  replace (length ops <? 10)%nat with false by (symmetry; apply Nat.ltb_ge; exact H1).
  destruct (Rlt_dec _ _); [reflexivity|contradiction].
Qed.

Lemma three_phase_ends : forall n, (1 <= n)%nat -> three_phase n 0 = 2 /\ three_phase n n = 1/10.
Proof.
  intros n H. apply le_INR in H. cbn [INR] in H. unfold three_phase. cbn [INR]. split.
  - destruct (Rlt_dec _ _); lra.
  - destruct (Rlt_dec _ _); [lra|]. destruct (Rlt_dec _ _); lra.
Qed.

Lemma eval_grad_fails : forall out, eval_grad out = Err RuntimeError.
Proof. reflexivity. Qed.

Lemma overwrite_loses : forall A (f : fs A) d o t c1 c2 s, usable_dir f (save_target d o) s ->
  (forall p, fs_file f p <> Some c1) -> c1 <> c2 ->
  exists f1 f2, save_model f d o t c1 = (Ok tt, f1) /\ save_model f1 d o t c2 = (Ok tt, f2)
  /\ fs_file f1 (model_path s t) = Some c1 /\ forall p, fs_file f2 p <> Some c1.
Proof.
  intros A f d o t c1 c2 s U N Hc.
  destruct (save_usable A f d o t c1 s U) as (f1 & E1 & F1).
  assert (U1 : usable_dir f1 (save_target d o) s).
  { destruct (save_ok_inv _ _ _ _ _ _ _ E1) as (s' & _ & _ & _ & D & C).
    unfold usable_dir in *. rewrite C. destruct U as [[U1 [U2|U2]]|[U1 U2]]; [left|left|right]; auto. }
  destruct (save_usable A f1 d o t c2 s U1) as (f2 & E2 & F2).
  exists f1, f2. split; [exact E1|]. split; [exact E2|]. split; [exact F1|].
  intros p Hp. apply (N p). exact (overwrite A f f1 f2 d o t c1 c2 s E1 E2 U p Hp Hc).
Qed.
