(** Every operation of the model computes the derivative of its value. *)

From Coq Require Import Reals Lra Lia List.
From Coquelicot Require Import Coquelicot.
From Verif Require Import Prelude RdtModel SpectraModel RdtSpec RdtProofs RdtOde SpectraProofs OpsModel OpsSpec OpsProofs LossModel TotalSpec AutoModel AutoSpec.
Import ListNotations.
Open Scope R_scope.

(** [d] is value and derivative of [f] at zero. *)
Definition tracks (f : R -> R) (d : dual) : Prop := f 0 = val d /\ is_derive f 0 (der d).

Lemma tracks_ext : forall f g d, (forall t, f t = g t) -> tracks f d -> tracks g d.
Proof.
  intros f g d H [V D]. split; [rewrite <- H; exact V|]. apply (is_derive_ext f); assumption.
Qed.

Lemma tracks_const : forall c, tracks (fun _ => c) (const c).
Proof. intros c. split; [reflexivity|]. cbn [der const]. apply @is_derive_const. Qed.

Lemma tracks_moved : forall d, tracks (fun t => moved t d) d.
Proof.
  intros d. split; [unfold moved; ring|]. unfold moved. auto_derive; [exact I|ring].
Qed.

Lemma tracks_add : forall f g a b, tracks f a -> tracks g b -> tracks (fun t => f t + g t) (dadd a b).
Proof.
  intros f g a b [V1 D1] [V2 D2]. split; [cbn [val dadd]; rewrite V1, V2; reflexivity|].
  apply @is_derive_plus; assumption.
Qed.

Lemma tracks_sub : forall f g a b, tracks f a -> tracks g b -> tracks (fun t => f t - g t) (dsub a b).
Proof.
  intros f g a b [V1 D1] [V2 D2]. split; [cbn [val dsub]; rewrite V1, V2; reflexivity|].
  apply @is_derive_minus; assumption.
Qed.

Lemma tracks_mul : forall f g a b, tracks f a -> tracks g b -> tracks (fun t => f t * g t) (dmul a b).
Proof.
  intros f g a b [V1 D1] [V2 D2]. split; [cbn [val dmul]; rewrite V1, V2; reflexivity|].
  cbn [der dmul]. rewrite <- V1, <- V2. apply (is_derive_mult f g 0 (der a) (der b)); [assumption|assumption|].
  intros; apply Rmult_comm.
Qed.

Lemma tracks_div : forall f g a b, val b <> 0 -> tracks f a -> tracks g b -> tracks (fun t => f t / g t) (ddiv a b).
Proof.
  intros f g a b N [V1 D1] [V2 D2]. split; [cbn [val ddiv]; rewrite V1, V2; reflexivity|].
  evar_last; [apply is_derive_div; [exact D1|exact D2|rewrite V2; exact N]|].
  cbn [der ddiv]. rewrite V1, V2. field. exact N.
Qed.

Lemma tracks_comp : forall F f a l, tracks f a -> is_derive F (val a) l -> tracks (fun t => F (f t)) (Dual (F (val a)) (der a * l)).
Proof.
  intros F f a l [V D] H. split; [cbn [val]; rewrite V; reflexivity|]. cbn [der].
  evar_last; [apply (is_derive_comp F f 0 l (der a)); [rewrite V; exact H|exact D]|]. reflexivity.
Qed.

Lemma tracks_sq : forall f a, tracks f a -> tracks (fun t => f t ^ 2) (dsq a).
Proof.
  intros f a H. apply (tracks_comp (fun x => x ^ 2) f a (2 * val a) H). auto_derive; [exact I|ring].
Qed.

Lemma derive_power : forall c x, 0 < x -> is_derive (fun x => Rpower x c) x (c * Rpower x (c - 1)).
Proof. intros c x H. apply is_derive_Reals. apply derivable_pt_lim_power. exact H. Qed.

Lemma tracks_pow : forall f a c, 0 < val a -> tracks f a -> tracks (fun t => Rpower (f t) c) (dpow a c).
Proof.
  intros f a c P H. apply (tracks_comp (fun x => Rpower x c) f a (c * Rpower (val a) (c - 1)) H).
  apply derive_power. exact P.
Qed.

Lemma tracks_exp : forall f a, tracks f a -> tracks (fun t => exp (f t)) (dexp a).
Proof.
  intros f a H. apply (tracks_comp exp f a (exp (val a)) H). apply is_derive_Reals, derivable_pt_lim_exp.
Qed.

Lemma tracks_ln : forall f a, 0 < val a -> tracks f a -> tracks (fun t => ln (f t)) (dln a).
Proof.
  intros f a P H. apply (tracks_comp ln f a (/ val a) H). apply is_derive_Reals, derivable_pt_lim_ln. exact P.
Qed.

Lemma tracks_sqrt : forall f a, 0 < val a -> tracks f a -> tracks (fun t => sqrt (f t)) (dsqrt a).
Proof.
  intros f a P H. apply (tracks_comp sqrt f a (/ (2 * sqrt (val a))) H).
  apply is_derive_Reals, derivable_pt_lim_sqrt. exact P.
Qed.

Lemma tracks_eq : forall f d d', val d = val d' -> der d = der d' -> tracks f d -> tracks f d'.
Proof. intros f d d' V D [H1 H2]. rewrite V in H1. rewrite D in H2. split; assumption. Qed.

Lemma tracks_powt : forall f g a p, 0 < val a -> tracks f a -> tracks g p -> tracks (fun t => Rpower (f t) (g t)) (dpowt a p).
Proof.
  intros f g a p P H G.
  apply (tracks_eq _ (dexp (dmul p (dln a)))); [reflexivity| |].
  - cbn [der dexp dmul dln val dpowt]. fold (Rpower (val a) (val p)).
    replace (Rpower (val a) (val p - 1)) with (Rpower (val a) (val p) / val a); [field; lra|].
    unfold Rminus. rewrite Rpower_plus, Rpower_Ropp, Rpower_1 by exact P. reflexivity.
  - unfold Rpower. apply tracks_exp, tracks_mul; [exact G|]. apply tracks_ln; assumption.
Qed.

Lemma tracks_cont : forall f d, tracks f d -> continuous f 0.
Proof. intros f d [_ D]. apply (ex_derive_continuous (K := R_AbsRing) (V := R_NormedModule)). exists (der d). exact D. Qed.

Lemma tracks_loc : forall f g d, f 0 = g 0 -> locally 0 (fun t => f t = g t) -> tracks f d -> tracks g d.
Proof.
  intros f g d H0 H [V D]. split; [rewrite <- H0; exact V|]. apply (is_derive_ext_loc f); assumption.
Qed.

Lemma near_lt : forall f d c, tracks f d -> val d < c -> locally 0 (fun t => f t < c).
Proof.
  intros f d c H L. assert (C := tracks_cont f d H). destruct H as [V _].
  apply (C (fun u => u < c)). apply (open_lt c). rewrite V. exact L.
Qed.

Lemma near_gt : forall f d c, tracks f d -> c < val d -> locally 0 (fun t => c < f t).
Proof.
  intros f d c H L. assert (C := tracks_cont f d H). destruct H as [V _].
  apply (C (fun u => c < u)). apply (open_gt c). rewrite V. exact L.
Qed.

Lemma tracks_abs : forall f a, val a <> 0 -> tracks f a -> tracks (fun t => Rabs (f t)) (dabs a).
Proof.
  intros f a N H. destruct (Rlt_dec 0 (val a)) as [P|P].
  - apply (tracks_eq _ a).
    + cbn [val dabs]. rewrite Rabs_pos_eq; lra.
    + cbn [der dabs]. unfold Rsign. destruct (Rlt_dec 0 (val a)); [ring|contradiction].
    + apply (tracks_loc f); [|generalize (near_gt f a 0 H P); apply filter_imp; intros t Ht; rewrite Rabs_pos_eq; lra|exact H].
      destruct H as [V _]. rewrite V, Rabs_pos_eq; lra.
  - assert (Q : val a < 0) by lra.
    apply (tracks_eq _ (dsub (const 0) a)).
    + cbn [val dabs dsub const]. rewrite Rabs_left; lra.
    + cbn [der dabs dsub const]. unfold Rsign. destruct (Rlt_dec 0 (val a)); [contradiction|].
      destruct (Rlt_dec (val a) 0); [ring|contradiction].
    + apply (tracks_loc (fun t => 0 - f t)); [|generalize (near_lt f a 0 H Q); apply filter_imp; intros t Ht; rewrite Rabs_left; lra|].
      * destruct H as [V _]. rewrite V, Rabs_left; lra.
      * apply tracks_sub; [apply tracks_const|exact H].
Qed.

Lemma tracks_atan2 : forall f g y x, (val y <> 0 \/ 0 < val x) -> tracks f y -> tracks g x ->
  tracks (fun t => atan2 (f t) (g t)) (datan2 y x).
Proof.
  intros f g y x H [V1 D1] [V2 D2]. split; [cbn [val datan2]; rewrite V1, V2; reflexivity|].
  evar_last; [apply is_derive_atan2; [exact D1|exact D2|rewrite V1, V2; exact H]|].
  cbn [der datan2]. rewrite V1, V2. field.
  destruct H as [H|H]; [pose proof (sq_pos _ H); pose proof (pow2_ge_0 (val x))|assert (H' : val x <> 0) by lra; pose proof (sq_pos _ H'); pose proof (pow2_ge_0 (val y))]; lra.
Qed.

(** Lists of tracked functions. *)
Lemma tracks_sum : forall (l : list ((R -> R) * dual)), List.Forall (fun p => tracks (fst p) (snd p)) l ->
  tracks (fun t => Rsum (map (fun p => fst p t) l)) (Dual (Rsum (map (fun p => val (snd p)) l)) (Rsum (map (fun p => der (snd p)) l))).
Proof.
  induction l as [|p l IH]; intros H.
  - apply (tracks_const 0).
  - inversion H as [|p' l' Hp Hl]; subst.
    apply (tracks_add (fst p) (fun t => Rsum (map (fun p => fst p t) l)) (snd p)
             (Dual (Rsum (map (fun p => val (snd p)) l)) (Rsum (map (fun p => der (snd p)) l))) Hp (IH Hl)).
Qed.
