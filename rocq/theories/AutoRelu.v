(** The derivative applied for the ReLU activation (C186). *)

From Coq Require Import Reals Lra.
From Coquelicot Require Import Coquelicot.
From Verif Require Import AutoModel.
Open Scope R_scope.

Lemma relu_right : forall x, is_derive (act_fun relu_act) x (act_der relu_act x) <-> x <> 0.
Proof.
  intros x. cbn [act_fun act_der relu_act]. split.
  - intros H E. subst x. destruct (Rlt_dec 0 0) as [C|_]; [lra|].
    (* the right difference quotients are 1 *)
    apply is_derive_Reals in H. destruct (H (1/2)) as (d & Hd); [lra|].
    assert (P := cond_pos d). specialize (Hd (pos d / 2)).
    rewrite Rplus_0_l, (Rmax_right 0 (pos d / 2)), (Rmax_left 0 0) in Hd by lra.
    replace ((pos d / 2 - 0) / (pos d / 2) - 0) with 1 in Hd by (field; lra).
    rewrite Rabs_R1 in Hd. rewrite (Rabs_pos_eq (pos d / 2)) in Hd by lra. specialize (Hd ltac:(lra) ltac:(lra)). lra.
  - intros E. destruct (Rlt_dec 0 x) as [P|P].
    + apply (is_derive_ext_loc (fun y => y)); [|auto_derive; [exact I|reflexivity]].
      exists (mkposreal x P). intros y Hy. change (Rabs (y - x) < x) in Hy. apply Rabs_lt_between' in Hy. rewrite Rmax_right; lra.
    + assert (Q : 0 < - x) by lra. apply (is_derive_ext_loc (fun y => 0)); [|auto_derive; [exact I|reflexivity]].
      exists (mkposreal (- x) Q). intros y Hy. change (Rabs (y - x) < - x) in Hy. apply Rabs_lt_between' in Hy. rewrite Rmax_left; lra.
Qed.
