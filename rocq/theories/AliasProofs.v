(** Lemmas about sharing of parameter vectors. *)

From Coq Require Import Reals List Arith Lia Lra.
From Verif Require Import Prelude AliasModel AliasSpec.
Import ListNotations.
Open Scope R_scope.

Lemma replace_length : forall A (l : list A) i v, length (replace_at l i v) = length l.
Proof. intros A l. induction l as [|a l IH]; intros [|i] v; cbn; auto. Qed.

Lemma replace_nth : forall A (l : list A) i v j d, nth j (replace_at l i v) d = if (j =? i)%nat then (if (i <? length l)%nat then v else d) else nth j l d.
Proof.
  intros A l. induction l as [|a l IH]; intros i v j d.
  - cbn [replace_at length]. destruct i; cbn [Nat.ltb Nat.leb]; destruct (j =? _)%nat; destruct j; reflexivity.
  - destruct i as [|i], j as [|j]; cbn [replace_at nth Nat.eqb]; try reflexivity. rewrite IH. cbn [length]. destruct (j =? i)%nat; reflexivity.
Qed.

Lemma replace_nth_error : forall A (l : list A) i v j, nth_error (replace_at l i v) j = if (j =? i)%nat then (if (i <? length l)%nat then Some v else None) else nth_error l j.
Proof.
  intros A l. induction l as [|a l IH]; intros i v j.
  - cbn [replace_at length]. destruct i; cbn [Nat.ltb Nat.leb]; destruct (j =? _)%nat; destruct j; reflexivity.
  - destruct i as [|i], j as [|j]; cbn [replace_at nth_error Nat.eqb]; try reflexivity. rewrite IH. cbn [length]. destruct (j =? i)%nat; reflexivity.
Qed.

Lemma in_place_other : forall w b f c, c <> b -> buffer (in_place w b f) c = buffer w c.
Proof.
  intros w b f c H. unfold in_place. destruct (_ =? _)%nat; [|reflexivity]. unfold buffer, store. cbn [w_buffers]. rewrite replace_nth.
  destruct (Nat.eqb_spec c b); [contradiction|reflexivity].
Qed.

Lemma in_place_same : forall w b f, (b < length (w_buffers w))%nat -> length (f (buffer w b)) = length (buffer w b) -> buffer (in_place w b f) b = f (buffer w b).
Proof.
  intros w b f H HL. unfold in_place. rewrite HL, Nat.eqb_refl. unfold buffer at 1, store. cbn [w_buffers]. rewrite replace_nth, Nat.eqb_refl.
  destruct (Nat.ltb_spec b (length (w_buffers w))); [reflexivity|lia].
Qed.

Lemma in_place_problems : forall w b f, w_problems (in_place w b f) = w_problems w.
Proof. intros w b f. unfold in_place. destruct (_ =? _)%nat; reflexivity. Qed.

Lemma in_place_size : forall w b f, length (w_buffers (in_place w b f)) = length (w_buffers w).
Proof. intros w b f. unfold in_place. destruct (_ =? _)%nat; [apply replace_length|reflexivity]. Qed.

(** Everything is allocated. *)
Definition bounded (known : list nat) (w : world) : Prop :=
  (forall p b, buffer_of w p = Some b -> (b < length (w_buffers w))%nat) /\ (forall b, In b known -> (b < length (w_buffers w))%nat).

(** Problems have buffers of their own, which the user does not hold. *)
Definition separate (known : list nat) (w : world) : Prop :=
  bounded known w
  /\ (forall p q b, buffer_of w p = Some b -> buffer_of w q = Some b -> p = q)
  /\ (forall p b, buffer_of w p = Some b -> ~ In b known).

Lemma snoc_nth : forall A (l : list A) x p b, nth_error (l ++ [x]) p = Some b -> nth_error l p = Some b \/ (p = length l /\ b = x).
Proof.
  intros A l x p b H. destruct (Nat.lt_ge_cases p (length l)).
  - rewrite nth_error_app1 in H by assumption. left. exact H.
  - rewrite nth_error_app2 in H by assumption. right. destruct (p - length l)%nat as [|k] eqn:E; cbn in H; [split; [lia|congruence]|destruct k; discriminate].
Qed.

Definition new_of (s : step) (w : world) : list nat := match fst (do_step s w) with Ok (Some b) => [b] | _ => [] end.

Lemma step_bounded : forall known s w, bounded known w ->
  match s with Write b _ => In b known | Set_ _ (NumpyVector b) => In b known | Set_ _ (TorchVector b) => In b known | _ => True end ->
  bounded (known ++ new_of s w) (snd (do_step s w)).
Proof.
  intros known s w (HP & HK) HS. unfold new_of.
  assert (S0 : bounded (known ++ []) w) by (split; [exact HP|intros b; rewrite app_nil_r; apply HK]).
  assert (AL : forall v, bounded (known ++ [length (w_buffers w)]) (World (w_buffers w ++ [v]) (w_problems w))).
  { intros v. split; cbn [w_buffers]; rewrite app_length; cbn [length].
    - intros p b H. specialize (HP p b H). lia.
    - intros b H. apply in_app_or in H. destruct H as [H|[<-|[]]]; [specialize (HK b H)|]; lia. }
  assert (IP : forall b f, bounded (known ++ []) (in_place w b f)).
  { intros b f. split; rewrite in_place_size.
    - intros p c. unfold buffer_of. rewrite in_place_problems. apply HP.
    - intros c. rewrite app_nil_r. apply HK. }
  destruct s as [v|v|p|p [c|c]|p f|b f]; cbn [do_step alloc].
  - apply AL.
  - cbn [fst snd w_buffers w_problems]. rewrite app_nil_r. split; cbn [w_buffers]; rewrite app_length; cbn [length].
    + intros p b H. apply snoc_nth in H. destruct H as [H|[_ ->]]; [specialize (HP p b H)|]; lia.
    + intros b H. specialize (HK b H). lia.
  - destruct (buffer_of w p) as [b|]; [apply AL|exact S0].
  - destruct (buffer_of w p) as [b|] eqn:E; [|exact S0]. destruct (_ =? _)%nat; [|exact S0].
    cbn [fst snd w_buffers w_problems]. rewrite app_nil_r. split; cbn [w_buffers]; rewrite app_length; cbn [length].
    + intros q d H. unfold buffer_of in H. cbn [w_problems] in H. rewrite replace_nth_error in H. destruct (q =? p)%nat; [|specialize (HP q d H); lia].
      destruct (_ <? _)%nat; [|discriminate]. injection H as <-. lia.
    + intros d H. specialize (HK d H). lia.
  - destruct (buffer_of w p) as [b|] eqn:E; [|exact S0]. destruct (_ =? _)%nat; [|exact S0].
    cbn [fst snd]. rewrite app_nil_r. split; cbn [w_buffers].
    + intros q d H. unfold buffer_of in H. cbn [w_problems] in H. rewrite replace_nth_error in H. destruct (q =? p)%nat; [|apply (HP q d H)].
      destruct (_ <? _)%nat; [|discriminate]. injection H as <-. apply HK. exact HS.
    + exact HK.
  - destruct (buffer_of w p) as [b|]; [apply IP|exact S0].
  - apply IP.
Qed.

Lemma step_separate : forall known s w, separate known w ->
  match s with Write b _ => In b known | Set_ _ (NumpyVector b) => In b known | Set_ _ (TorchVector b) => False | _ => True end ->
  separate (known ++ new_of s w) (snd (do_step s w)).
Proof.
  intros known s w (HB & HD & HU) HS. split.
  { apply step_bounded; [exact HB|]. destruct s as [v|v|p|p [c|c]|p f|b f]; try exact HS; contradiction. }
  destruct HB as (HP & HK). unfold new_of.
  assert (S0 : (forall p q b, buffer_of w p = Some b -> buffer_of w q = Some b -> p = q) /\ (forall p b, buffer_of w p = Some b -> ~ In b (known ++ []))) by (split; [exact HD|intros p b; rewrite app_nil_r; apply HU]).
  assert (AL : forall v, let w1 := World (w_buffers w ++ [v]) (w_problems w) in
     (forall p q b, buffer_of w1 p = Some b -> buffer_of w1 q = Some b -> p = q) /\ (forall p b, buffer_of w1 p = Some b -> ~ In b (known ++ [length (w_buffers w)]))).
  { intros v w1. split; [exact HD|]. intros p b H HI. apply in_app_or in HI. destruct HI as [HI|[<-|[]]]; [exact (HU p b H HI)|]. specialize (HP p _ H). lia. }
  assert (IP : forall b f, (forall p q c, buffer_of (in_place w b f) p = Some c -> buffer_of (in_place w b f) q = Some c -> p = q) /\ (forall p c, buffer_of (in_place w b f) p = Some c -> ~ In c (known ++ []))).
  { intros b f. split; unfold buffer_of; rewrite in_place_problems; apply S0. }
  destruct s as [v|v|p|p [c|c]|p f|b f]; cbn [do_step alloc]; [apply AL| | | |contradiction| |apply IP].
  - cbn [fst snd w_buffers w_problems]. rewrite app_nil_r. split.
    + intros p q b H1 H2. apply snoc_nth in H1, H2. destruct H1 as [H1|[E1 X1]], H2 as [H2|[E2 X2]].
      * exact (HD p q b H1 H2).
      * specialize (HP p b H1). lia.
      * specialize (HP q b H2). lia.
      * lia.
    + intros p b H HI. apply snoc_nth in H. destruct H as [H|[_ ->]]; [exact (HU p b H HI)|]. specialize (HK _ HI). lia.
  - destruct (buffer_of w p) as [b|]; [apply AL|exact S0].
  - destruct (buffer_of w p) as [b|] eqn:E; [|exact S0]. destruct (_ =? _)%nat; [|exact S0].
    cbn [fst snd w_buffers w_problems]. rewrite app_nil_r.
    assert (HN : forall q d, nth_error (replace_at (w_problems w) p (length (w_buffers w))) q = Some d -> (q = p /\ d = length (w_buffers w)) \/ buffer_of w q = Some d).
    { intros q d H. rewrite replace_nth_error in H. destruct (Nat.eqb_spec q p); [|right; exact H]. destruct (_ <? _)%nat; [|discriminate]. injection H as <-. left. auto. }
    split.
    + intros q r d H1 H2. apply HN in H1, H2. destruct H1 as [[E1 X1]|H1], H2 as [[E2 X2]|H2].
      * congruence.
      * specialize (HP r d H2). lia.
      * specialize (HP q d H1). lia.
      * exact (HD q r d H1 H2).
    + intros q d H HI. apply HN in H. destruct H as [[_ ->]|H]; [specialize (HK _ HI); lia|exact (HU q d H HI)].
  - destruct (buffer_of w p) as [b|]; [apply IP|exact S0].
Qed.

Lemma steps_separate : forall l known w, separate known w -> honest known l w -> numpy_only l -> separate (known ++ handed l w) (do_steps l w).
Proof.
  induction l as [|s l IH]; intros known w HS HH HN.
  - cbn [handed do_steps]. rewrite app_nil_r. exact HS.
  - cbn [handed do_steps]. destruct HH as (H1 & HH). inversion HN as [|? ? N1 N2]; subst. rewrite app_assoc. apply IH; [|exact HH|exact N2].
    apply step_separate; [exact HS|]. destruct s as [v|v|p|p [c|c]|p f|b f]; auto.
Qed.

Lemma steps_bounded : forall l known w, bounded known w -> honest known l w -> bounded (known ++ handed l w) (do_steps l w).
Proof.
  induction l as [|s l IH]; intros known w HS HH.
  - cbn [handed do_steps]. rewrite app_nil_r. exact HS.
  - cbn [handed do_steps]. destruct HH as (H1 & HH). rewrite app_assoc. apply IH; [|exact HH]. apply step_bounded; assumption.
Qed.

Lemma empty_separate : separate [] empty_world.
Proof.
  split; [split|split].
  - intros [|p] b H; discriminate.
  - intros b [].
  - intros [|p] q b H; discriminate.
  - intros p b _ [].
Qed.

Lemma empty_bounded : bounded [] empty_world.
Proof. exact (proj1 empty_separate). Qed.

(** Independence after sessions without torch vectors. *)
Lemma independent : forall l, honest [] l empty_world -> numpy_only l ->
  let w := do_steps l empty_world in
  (forall p q f, p <> q -> params (snd (do_step (Train p f) w)) q = params w q)
  /\ (forall p f b, In b (handed l empty_world) -> buffer (snd (do_step (Train p f) w)) b = buffer w b)
  /\ (forall b f p, In b (handed l empty_world) -> params (snd (do_step (Write b f) w)) p = params w p)
  /\ (forall p q b, In b (handed l empty_world) -> fst (do_step (Set_ p (NumpyVector b)) w) = Ok None ->
        params (snd (do_step (Set_ p (NumpyVector b)) w)) q = if (q =? p)%nat then Some (buffer w b) else params w q).
Proof.
  intros l HH HN w. pose proof (steps_separate l [] empty_world empty_separate HH HN) as HS. cbn [app] in HS. fold w in HS.
  set (known := handed l empty_world) in *. destruct HS as ((HP & HK) & HD & HU).
  assert (PI : forall b f q, (forall c, buffer_of w q = Some c -> c <> b) -> params (in_place w b f) q = params w q).
  { intros b f q H. unfold params, buffer_of. rewrite in_place_problems. change (nth_error (w_problems w) q) with (buffer_of w q).
    destruct (buffer_of w q) as [c|] eqn:E; [|reflexivity]. rewrite in_place_other by (apply H; reflexivity). reflexivity. }
  split; [|split; [|split]].
  - intros p q f Hpq. cbn [do_step]. destruct (buffer_of w p) as [b|] eqn:E; [|reflexivity]. cbn [snd]. apply PI. intros c Hc ->. apply Hpq. exact (HD p q b E Hc).
  - intros p f b Hb. cbn [do_step]. destruct (buffer_of w p) as [c|] eqn:E; [|reflexivity]. cbn [snd]. apply in_place_other. intros ->. exact (HU p c E Hb).
  - intros b f p Hb. cbn [do_step snd]. apply PI. intros c Hc ->. exact (HU p b Hc Hb).
  - intros p q b Hb. cbn [do_step]. destruct (buffer_of w p) as [c|] eqn:E; [|discriminate]. destruct (_ =? _)%nat; [|discriminate]. intros _. cbn [alloc snd w_problems w_buffers].
    unfold params, buffer_of. cbn [w_problems]. rewrite replace_nth_error. destruct (Nat.eqb_spec q p) as [->|Hq].
    + assert (HL : (p < length (w_problems w))%nat) by (apply nth_error_Some; unfold buffer_of in E; congruence).
      destruct (Nat.ltb_spec p (length (w_problems w))); [|lia]. unfold buffer at 1. cbn [w_buffers]. rewrite app_nth2 by lia. rewrite Nat.sub_diag. reflexivity.
    + destruct (nth_error (w_problems w) q) as [d|] eqn:Ed; [|reflexivity]. unfold buffer. cbn [w_buffers]. rewrite app_nth1 by (apply (HP q d Ed)). reflexivity.
Qed.

(** Vectors read from a problem are copies. *)
Lemma step_alone : forall s w b, (b < length (w_buffers w))%nat -> (forall p, buffer_of w p <> Some b) ->
  match s with Write c _ => c <> b | Set_ _ (TorchVector c) => c <> b | _ => True end ->
  let w1 := snd (do_step s w) in buffer w1 b = buffer w b /\ (b < length (w_buffers w1))%nat /\ (forall p, buffer_of w1 p <> Some b).
Proof.
  intros s w b HB HP HS w1.
  assert (AL : forall v, let w1 := World (w_buffers w ++ [v]) (w_problems w) in buffer w1 b = buffer w b /\ (b < length (w_buffers w1))%nat /\ (forall p, buffer_of w1 p <> Some b)).
  { intros v. cbv zeta. split; [unfold buffer; cbn [w_buffers]; apply app_nth1; exact HB|]. split; [cbn [w_buffers]; rewrite app_length; lia|exact HP]. }
  assert (IP : forall c f, c <> b -> buffer (in_place w c f) b = buffer w b /\ (b < length (w_buffers (in_place w c f)))%nat /\ (forall p, buffer_of (in_place w c f) p <> Some b)).
  { intros c f Hc. split; [apply in_place_other; congruence|]. split; [rewrite in_place_size; exact HB|]. intros p. unfold buffer_of. rewrite in_place_problems. apply HP. }
  subst w1. destruct s as [v|v|p|p [c|c]|p f|c f]; cbn [do_step alloc].
  - apply AL.
  - cbn [snd w_problems w_buffers]. destruct (AL v) as (A1 & A2 & A3). split; [exact A1|]. split; [exact A2|]. intros p H. apply snoc_nth in H. destruct H as [H|[_ H]]; [exact (HP p H)|lia].
  - destruct (buffer_of w p); [apply AL|auto].
  - destruct (buffer_of w p); [|auto]. destruct (_ =? _)%nat; [|auto]. cbn [snd w_problems w_buffers]. destruct (AL (buffer w c)) as (A1 & A2 & A3). split; [exact A1|]. split; [exact A2|].
    intros q H. unfold buffer_of in H. cbn [w_problems] in H. rewrite replace_nth_error in H. destruct (q =? p)%nat; [|exact (HP q H)]. destruct (_ <? _)%nat; [|discriminate]. injection H as H. lia.
  - destruct (buffer_of w p); [|auto]. destruct (_ =? _)%nat; [|auto]. cbn [snd]. split; [reflexivity|]. split; [exact HB|].
    intros q H. unfold buffer_of in H. cbn [w_problems] in H. rewrite replace_nth_error in H. destruct (q =? p)%nat; [|exact (HP q H)]. destruct (_ <? _)%nat; [|discriminate]. injection H as H. contradiction.
  - destruct (buffer_of w p) as [c|] eqn:E; [|auto]. cbn [snd]. apply IP. intros ->. exact (HP p E).
  - cbn [snd]. apply IP. exact HS.
Qed.

Lemma snapshot : forall l p b l2, honest [] l empty_world ->
  let w := do_steps l empty_world in
  fst (do_step (Read p) w) = Ok (Some b) -> leaves_alone b l2 ->
  Some (buffer (do_steps l2 (snd (do_step (Read p) w))) b) = params w p.
Proof.
  intros l p b l2 HH w HR HL. destruct (steps_bounded l [] empty_world empty_bounded HH) as (HP & _). fold w in HP.
  cbn [do_step] in *. unfold params. destruct (buffer_of w p) as [c|] eqn:E; [|discriminate]. cbn [alloc fst snd] in *. injection HR as <-. f_equal.
  set (w1 := World (w_buffers w ++ [buffer w c]) (w_problems w)).
  assert (I : buffer w1 (length (w_buffers w)) = buffer w c /\ (length (w_buffers w) < length (w_buffers w1))%nat /\ forall q, buffer_of w1 q <> Some (length (w_buffers w))).
  { split; [unfold buffer at 1; cbn [w1 w_buffers]; rewrite app_nth2 by lia; rewrite Nat.sub_diag; reflexivity|]. split; [cbn [w1 w_buffers]; rewrite app_length; cbn; lia|].
    intros q H. specialize (HP q _ H). lia. }
  destruct I as (I1 & I2 & I3). rewrite <- I1. clearbody w1. clear I1. set (b := length (w_buffers w)) in *. clearbody b. clear E HP.
  revert w1 I2 I3. induction l2 as [|s l2 IH]; intros w1 I2 I3; [reflexivity|]. cbn [do_steps]. inversion HL as [|? ? N1 N2]; subst.
  destruct (step_alone s w1 b I2 I3 N1) as (A1 & A2 & A3). rewrite <- A1. apply IH; assumption.
Qed.

(** Problems given the same torch tensor are trained together. *)
Lemma shared : forall l p q b f, honest [] l empty_world -> p <> q ->
  let w := do_steps l empty_world in
  In b (handed l empty_world) -> (forall v, length (f v) = length v) ->
  forall u v, params w p = Some u -> params w q = Some v -> length u = length (buffer w b) -> length v = length (buffer w b) ->
  let w2 := snd (do_step (Set_ q (TorchVector b)) (snd (do_step (Set_ p (TorchVector b)) w))) in
  let w3 := snd (do_step (Train p f) w2) in
  params w2 q = Some (buffer w b) /\ params w3 q = Some (f (buffer w b)) /\ buffer w3 b = f (buffer w b)
  /\ params (snd (do_step (Write b f) w2)) p = Some (f (buffer w b)).
Proof.
  intros l p q b f HH Hpq w Hb Hf u v Hu Hv Lu Lv. destruct (steps_bounded l [] empty_world empty_bounded HH) as (HP & HK). fold w in HP, HK. specialize (HK b Hb).
  unfold params in Hu, Hv. destruct (buffer_of w p) as [c|] eqn:Ep; [|discriminate]. destruct (buffer_of w q) as [d|] eqn:Eq; [|discriminate]. injection Hu as <-. injection Hv as <-.
  cbv zeta. assert (S1 : snd (do_step (Set_ p (TorchVector b)) w) = World (w_buffers w) (replace_at (w_problems w) p b)).
  { cbn [do_step]. rewrite Ep, Lu, Nat.eqb_refl. reflexivity. }
  rewrite S1. set (w1 := World (w_buffers w) (replace_at (w_problems w) p b)).
  assert (E1 : buffer_of w1 q = Some d).
  { unfold buffer_of. cbn [w1 w_problems]. rewrite replace_nth_error. destruct (Nat.eqb_spec q p); [congruence|exact Eq]. }
  assert (S2 : snd (do_step (Set_ q (TorchVector b)) w1) = World (w_buffers w) (replace_at (w_problems w1) q b)).
  { cbn [do_step]. rewrite E1. change (buffer w1 d) with (buffer w d). change (buffer w1 b) with (buffer w b). rewrite Lv, Nat.eqb_refl. reflexivity. }
  rewrite S2. set (w2 := World (w_buffers w) (replace_at (w_problems w1) q b)).
  assert (Pp : (p < length (w_problems w))%nat) by (apply nth_error_Some; unfold buffer_of in Ep; congruence).
  assert (Pq : (q < length (w_problems w))%nat) by (apply nth_error_Some; unfold buffer_of in Eq; congruence).
  assert (B2p : buffer_of w2 p = Some b).
  { unfold buffer_of. cbn [w2 w1 w_problems]. rewrite !replace_nth_error, !Nat.eqb_refl. destruct (Nat.eqb_spec p q); [congruence|]. destruct (Nat.ltb_spec p (length (w_problems w))); [reflexivity|lia]. }
  assert (B2q : buffer_of w2 q = Some b).
  { unfold buffer_of. cbn [w2 w1 w_problems]. rewrite replace_nth_error, Nat.eqb_refl, replace_length. destruct (Nat.ltb_spec q (length (w_problems w))); [reflexivity|lia]. }
  assert (IPb : buffer (in_place w2 b f) b = f (buffer w b)) by (rewrite in_place_same; [reflexivity|exact HK|apply Hf]).
  assert (PR : forall r, buffer_of w2 r = Some b -> params (in_place w2 b f) r = Some (f (buffer w b))).
  { intros r Hr. unfold params, buffer_of. rewrite in_place_problems. unfold buffer_of in Hr. rewrite Hr, IPb. reflexivity. }
  cbn [do_step]. rewrite B2p. cbn [snd]. split; [unfold params; rewrite B2q; reflexivity|]. split; [apply PR; exact B2q|]. split; [exact IPb|apply PR; exact B2p].
Qed.
