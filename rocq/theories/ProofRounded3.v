(** ProofRounded3: signs and order in a rounded arithmetic: linear interpolation, find_pk with 'lin', the running variance. *)
From Coq Require Import ZArith Lia Reals Lra List Bool Floats.
From Verif Require Import Base Num BaseFacts Order Spec Common ProofSearch ProofInterp ProofFindPk ProofFindPkR SpecRounded ProofRounded ProofRounded2.
Import ListNotations.
Local Open Scope R_scope.

Section Signs.
Context (F : R -> Prop) (rnd : R -> R) (lm : libmR) (RD : rounding F rnd).
Local Notation Q := (QNum rnd lm).
Local Notation r0 := (rnd0 F rnd RD).
Local Notation mono := (r_mono F rnd RD).
Local Notation rpos := (rnd_pos F rnd RD).

Lemma div_pos a b : 0 <= a -> 0 <= b -> 0 <= a / b.
Proof.
  intros Ha [Hb|Hb]; [|subst b; unfold Rdiv; rewrite Rinv_0; lra].
  unfold Rdiv. apply Rmult_le_pos; [exact Ha|]. apply Rlt_le, Rinv_0_lt_compat, Hb.
Qed.
Lemma div_mono a b c : a <= b -> 0 <= c -> a / c <= b / c.
Proof.
  intros H [Hc|Hc]; [|subst c; unfold Rdiv; rewrite Rinv_0; lra].
  unfold Rdiv. apply Rmult_le_compat_r; [|exact H]. apply Rlt_le, Rinv_0_lt_compat, Hc.
Qed.
(** The position in the interval, as the code rounds it. *)
Definition pos (x x0 x1 : R) : R := rnd (rnd (x - x0) / rnd (x1 - x0)).
Lemma pos_mono x x' x0 x1 : x0 <= x1 -> x <= x' -> pos x x0 x1 <= pos x' x0 x1.
Proof. intros H Hx. apply mono, div_mono; [apply mono; lra|apply rpos; lra]. Qed.
Lemma pos_01 x x0 x1 : x0 <= x <= x1 -> 0 <= pos x x0 x1 <= 1.
Proof.
  intros H. split; [apply rpos, div_pos; apply rpos; lra|].
  rewrite <- (r_id _ _ RD 1 (r_one _ _ RD)). apply mono.
  assert (A : 0 <= rnd (x - x0)) by (apply rpos; lra). assert (B : rnd (x - x0) <= rnd (x1 - x0)) by (apply mono; lra).
  destruct (Rlt_dec 0 (rnd (x1 - x0))) as [C|C].
  - apply Rmult_le_reg_r with (rnd (x1 - x0)); [exact C|]. unfold Rdiv. rewrite Rmult_assoc, Rinv_l, Rmult_1_r by lra. lra.
  - replace (rnd (x1 - x0)) with 0 by lra. unfold Rdiv. rewrite Rinv_0. lra.
Qed.
Lemma linQ_unfold x x0 x1 p0 p1 : interpol_lin (N := Q) x x0 x1 p0 p1 = rnd (rnd (pos x x0 x1 * rnd (p1 - p0)) + p0).
Proof. reflexivity. Qed.
(** It rises or falls with the wavenumber, as the table does, *)
Lemma lin_up x x' x0 x1 p0 p1 : x0 <= x1 -> x <= x' -> p0 <= p1 -> interpol_lin (N := Q) x x0 x1 p0 p1 <= interpol_lin (N := Q) x' x0 x1 p0 p1.
Proof.
  intros H Hx Hp. rewrite !linQ_unfold. apply mono, Rplus_le_compat_r, mono, Rmult_le_compat_r; [apply rpos; lra|now apply pos_mono].
Qed.
Lemma rnd_neg x : x <= 0 -> rnd x <= 0.
Proof. intros H. rewrite <- r0. now apply mono. Qed.
Lemma lin_down x x' x0 x1 p0 p1 : x0 <= x1 -> x <= x' -> p1 <= p0 -> interpol_lin (N := Q) x' x0 x1 p0 p1 <= interpol_lin (N := Q) x x0 x1 p0 p1.
Proof.
  intros H Hx Hp. rewrite !linQ_unfold. apply mono, Rplus_le_compat_r, mono.
  pose proof (pos_mono x x' x0 x1 H Hx). pose proof (rnd_neg (p1 - p0) ltac:(lra)). nra.
Qed.
(** and stays on the right side of the left end. *)
Lemma lin_side_up x x0 x1 p0 p1 : F p0 -> x0 <= x <= x1 -> p0 <= p1 -> p0 <= interpol_lin (N := Q) x x0 x1 p0 p1.
Proof.
  intros Fp H Hp. pose proof (lin_left F rnd lm RD x0 x1 p0 p1 Fp). pose proof (lin_up x0 x x0 x1 p0 p1 ltac:(lra) ltac:(lra) Hp). lra.
Qed.
Lemma lin_side_down x x0 x1 p0 p1 : F p0 -> x0 <= x <= x1 -> p1 <= p0 -> interpol_lin (N := Q) x x0 x1 p0 p1 <= p0.
Proof.
  intros Fp H Hp. pose proof (lin_left F rnd lm RD x0 x1 p0 p1 Fp). pose proof (lin_down x0 x x0 x1 p0 p1 ltac:(lra) ltac:(lra) Hp). lra.
Qed.
Lemma lin_nonnegQ x x0 x1 p0 p1 : F p0 -> x0 <= x <= x1 -> 0 <= p0 -> 0 <= p1 -> 0 <= interpol_lin (N := Q) x x0 x1 p0 p1.
Proof.
  intros Fp H Hp0 Hp1. destruct (Rle_dec p0 p1) as [C|C]; [pose proof (lin_side_up x x0 x1 p0 p1 Fp H C); lra|].
  rewrite linQ_unfold. apply rpos.
  assert (A : - p0 <= rnd (p1 - p0)). { rewrite <- (r_id _ _ RD (- p0)) by apply (r_opp _ _ RD), Fp. apply mono. lra. }
  pose proof (rnd_neg (p1 - p0) ltac:(lra)). pose proof (pos_01 x x0 x1 H).
  assert (B : - p0 <= rnd (pos x x0 x1 * rnd (p1 - p0))).
  { rewrite <- (r_id _ _ RD (- p0)) by apply (r_opp _ _ RD), Fp. apply mono. nra. }
  lra.
Qed.

Context (K P : list R).
Hypothesis HL : length P = length K.
Hypothesis HB : (1 <= zlen K < 2 ^ 62)%Z.
Hypothesis HI : increasing K.
Hypothesis FP : Forall F P.
Hypothesis HP : Forall (fun p => 0 <= p) P.
Let tb := mk_table (N := Q) K P.
Let nk := zlen K.

Lemma P_pos i v : rd P i = Ok v -> 0 <= v.
Proof. intros E. apply (rd_inv 0) in E as (Hi & ->). apply (proj1 (Forall_forall _ _) HP), znth_In, Hi. Qed.
Lemma P_F i v : rd P i = Ok v -> F v.
Proof. intros E. apply (rd_inv 0) in E as (Hi & ->). apply (proj1 (Forall_forall _ _) FP), znth_In, Hi. Qed.

(** ** The running variance *)

Lemma inner_sign n : forall kmax i (acc : R), (0 <= i < nk)%Z -> znth 0 K i <= kmax -> 0 <= acc ->
  forall i' acc' o, sig_inner (N := Q) n tb kmax i acc = Ok (i', acc', o) ->
  (0 <= i' < nk)%Z /\ znth 0 K i' <= kmax /\ 0 <= acc' /\ (forall v, o = Some v -> 0 <= v).
Proof.
  assert (LP : zlen P = nk) by (unfold nk, zlen; now rewrite HL).
  induction n as [|n IH]; intros kmax i acc Hi Hk Ha i' acc' o E; cbn [sig_inner] in E.
  - injection E as <- <- <-. split; [lia|]. split; [exact Hk|]. split; [exact Ha|]. discriminate.
  - cbn [pk_k pk_p tb mk_table] in E.
    match type of E with bind ?y _ = _ => destruct y as [k1|] eqn:E1; [|discriminate E] end. cbn [bind] in E.
    match type of E with bind ?y _ = _ => destruct y as [k0|] eqn:E0; [|discriminate E] end. cbn [bind] in E.
    match type of E with bind ?y _ = _ => destruct y as [p0|] eqn:EP0; [|discriminate E] end. cbn [bind] in E.
    match type of E with bind ?y _ = _ => destruct y as [p1|] eqn:EP1; [|discriminate E] end. cbn [bind] in E.
    pose proof (P_pos _ _ EP0) as H0. pose proof (P_pos _ _ EP1) as H1. pose proof (P_F _ _ EP0) as F0.
    qn_in E1. qn_in E0. apply (rd_inv 0) in E1 as (Hi1 & ->). apply (rd_inv 0) in E0 as (Hi0 & ->). qn_in E.
    destruct (Rltb_spec kmax (znth 0 K (i + 1)%Z)) as [C|C].
    + injection E as <- <- <-. split; [lia|]. split; [exact Hk|]. split; [exact Ha|].
      intros v [= <-]. pose proof (lin_nonnegQ kmax (znth 0 K i) (znth 0 K (i + 1)%Z) p0 p1 F0 ltac:(lra) H0 H1) as HLn.
      apply rpos, div_pos.
      * apply rpos, Rplus_le_le_0_compat; [exact Ha|]. apply rpos, Rmult_le_pos; apply rpos; [apply Rplus_le_le_0_compat; [exact HLn|exact H0]|lra].
      * pose proof PI_RGT_0. assert (0 <= rnd PI) by (apply rpos; lra).
        apply rpos, Rmult_le_pos; [|assumption]. apply rpos, Rmult_le_pos; [apply rpos; lra|assumption].
    + apply IH in E; [exact E|fold nk in Hi1; lia|lra|].
      apply rpos, Rplus_le_le_0_compat; [exact Ha|]. apply rpos, Rmult_le_pos; apply rpos; [lra|].
      pose proof (inc_znth K HI i (i + 1) ltac:(lia) ltac:(fold nk in Hi1; lia)). lra.
Qed.
Lemma loop_sign uv ks : 0 <= uv -> forall i (acc : R), (0 <= i < nk)%Z -> ascending ks -> 0 <= acc ->
  ((i = 0)%Z \/ Forall (fun k => znth 0 K i <= rnd (k * uv)) ks) ->
  forall out, sig_loop (N := Q) tb uv i acc ks = Ok out -> Forall (fun v => 0 <= v) out.
Proof.
  intros Hu. induction ks as [|k ks IH]; intros i acc Hi HA Ha HC out E; cbn [sig_loop] in E.
  - injection E as <-. constructor.
  - cbn [pk_k tb mk_table] in E. rewrite (rd_ok 0) in E by (fold nk; lia). cbn [bind] in E. qn_in E.
    assert (HA' : ascending ks). { intros a b Hab. apply (HA (S a) (S b)). cbn; lia. }
    destruct (Rltb_spec (rnd (k * uv)) (znth 0 K 0)) as [C|C].
    + match type of E with bind ?y _ = _ => destruct y as [r|] eqn:Er; [|discriminate E] end. cbn [bind] in E. injection E as <-.
      constructor; [rewrite r0; lra|]. apply (IH i acc Hi HA' Ha) in Er; [exact Er|].
      destruct HC as [->|HC]; [left; reflexivity|right; inversion HC; assumption].
    + match type of E with bind ?y _ = _ => destruct y as [[[i' acc'] o]|] eqn:Ei; [|discriminate E] end. cbn [bind] in E.
      match type of E with bind ?y _ = _ => destruct y as [r|] eqn:Er; [|discriminate E] end. cbn [bind] in E. injection E as <-.
      apply inner_sign in Ei; [|exact Hi| |exact Ha].
      2:{ destruct HC as [->|HC]; [lra|inversion HC; assumption]. }
      destruct Ei as (Hi' & Hk' & Ha' & Hv). constructor.
      * destruct o as [v|]; [now apply Hv|]. apply rpos, div_pos; [exact Ha'|].
        pose proof PI_RGT_0. assert (0 <= rnd PI) by (apply rpos; lra).
        apply rpos, Rmult_le_pos; [|assumption]. apply rpos, Rmult_le_pos; [apply rpos; lra|assumption].
      * apply (IH i' acc' Hi' HA' Ha') in Er; [exact Er|]. right.
        apply Forall_forall. intros y Hy. apply (In_nth _ _ 0) in Hy as (m & Hm & <-).
        apply Rle_trans with (rnd (k * uv)); [exact Hk'|]. apply mono, Rmult_le_compat_r; [exact Hu|].
        apply (HA 0%nat (S m)). cbn [length]. lia.
Qed.
Lemma variance_sign uv ks out : 0 <= uv -> ascending ks -> calc_running_sigmad2 (N := Q) tb ks uv = Ok out -> Forall (fun v => 0 <= v) out.
Proof.
  intros Hu HA E. unfold calc_running_sigmad2 in E. apply (loop_sign uv ks Hu 0 _) in E; [exact E|lia|exact HA| |left; reflexivity].
  qn. rewrite r0. lra.
Qed.

(** ** find_pk with linear interpolation *)
Hypothesis HK : Forall (fun k => 0 < k) K.
Hypothesis Hpow : forall x y, 0 <= x -> 0 <= q_pow lm x y.
Lemma brk_inr {S X} (A : X -> Prop) body : (forall i (s : S) x, body i s = Ok (inr x) -> A x) -> forall n i s x, loop_brk n i body s = Ok (inr x) -> A x.
Proof.
  intros H. induction n as [|n IH]; intros i s x E; cbn [loop_brk] in E; [discriminate E|].
  destruct (body i s) as [[s'|y]|] eqn:G; cbn [bind] in E; [exact (IH _ _ _ E)| |discriminate E]. injection E as <-. exact (H i s y G).
Qed.
Lemma slopesQ (t : Pk Q) a b (r : R) : sum_slopes (N := Q) t a b = Ok (inr r) -> r = 0.
Proof.
  unfold sum_slopes, for_brk. apply (brk_inr (fun r : R => r = 0)). intros i s x E.
  repeat (match type of E with bind ?y _ = _ => destruct y; cbn [bind] in E; [|discriminate E] end).
  destruct (_ || _); [injection E as <-; exact r0|]. repeat (match type of E with bind ?y _ = _ => destruct y; cbn [bind] in E; [|discriminate E] end). discriminate E.
Qed.
Lemma extrap_sign (k r : R) : 0 <= k -> (extrapol_pk_lowk (N := Q) tb k = Ok r \/ extrapol_pk_highk (N := Q) tb k = Ok r) -> 0 <= r.
Proof.
  intros Hk [E|E]; unfold extrapol_pk_lowk, extrapol_pk_highk in E;
    (match type of E with bind ?y _ = _ => destruct y as [[s|z]|] eqn:G; [| |discriminate E] end; cbn [bind] in E;
     [|injection E as <-; apply slopesQ in G; qn_in G; qn; lra]);
    (match type of E with bind ?y _ = _ => destruct y as [p|] eqn:Ep; [|discriminate E] end; cbn [bind] in E);
    (match type of E with bind ?y _ = _ => destruct y as [k0|] eqn:Ek; [|discriminate E] end; cbn [bind] in E);
    cbn [pk_k pk_p tb mk_table] in Ep, Ek; apply P_pos in Ep; qn_in Ek; apply (rd_inv 0) in Ek as (Hi & ->);
    injection E as <-; qn; apply rpos, Rmult_le_pos; try exact Ep; apply Hpow, rpos, div_pos; try exact Hk;
    apply Rlt_le, (proj1 (Forall_forall _ _) HK), znth_In, Hi.
Qed.
Lemma find_sign ks ps : ascending ks -> Forall (fun k => 0 <= k) ks -> find_pk (N := Q) tb ks LIN = Ok ps -> Forall (fun v => 0 <= v) ps.
Proof.
  intros HA H0 E. apply (elementwiseQ rnd lm K P HL ltac:(lia) HI) in E; [|lia|exact HA].
  clear HA. induction E as [|k p ks ps E1 E IH]; [constructor|]. inversion H0; subst. constructor; [|apply IH; assumption].
  apply (singleQ rnd lm K P HL ltac:(lia)) in E1 as (s & E1); [|lia].
  unfold find_pk_step in E1. qn_in E1. fold nk in E1.
  destruct (Rltb_spec (znth 0 K (nk - 1)) k) as [C|C].
  { match type of E1 with bind ?y _ = _ => destruct y as [r|] eqn:G; [|discriminate E1] end. cbn [bind] in E1. injection E1 as <- <-. eapply extrap_sign; [|right; exact G]. assumption. }
  destruct (Rltb_spec k (znth 0 K 0)) as [D|D].
  { match type of E1 with bind ?y _ = _ => destruct y as [r|] eqn:G; [|discriminate E1] end. cbn [bind] in E1. injection E1 as <- <-. eapply extrap_sign; [|left; exact G]. assumption. }
  rewrite (u64_small (nk - 1 + 1)) in E1 by (unfold SIZE_T; fold nk in HB; lia). replace (nk - 1 + 1)%Z with nk in E1 by lia.
  cbn [pk_k pk_p tb mk_table] in E1.
  destruct (bracketQ rnd lm K P HL ltac:(lia) HI k ltac:(lia) ltac:(lra)) as [j [Ej [Hj [B1 B2]]]]. fold nk in Ej, Hj, B2. qn_in Ej. rewrite Ej in E1. cbn [bind] in E1.
  match type of E1 with bind ?y _ = _ => destruct y as [k0|] eqn:G0; [|discriminate E1] end. cbn [bind] in E1.
  match type of E1 with bind ?y _ = _ => destruct y as [k1|] eqn:G1; [|discriminate E1] end. cbn [bind] in E1.
  match type of E1 with bind ?y _ = _ => destruct y as [p0|] eqn:G2; [|discriminate E1] end. cbn [bind] in E1.
  match type of E1 with bind ?y _ = _ => destruct y as [p1|] eqn:G3; [|discriminate E1] end. cbn [bind] in E1.
  injection E1 as <- <-. pose proof (P_F _ _ G2). apply P_pos in G2, G3. qn_in G0. qn_in G1. apply (rd_inv 0) in G0 as (Hi0 & ->). apply (rd_inv 0) in G1 as (Hi1 & ->).
  apply lin_nonnegQ; auto. destruct B2 as [B2|B2]; [fold nk in Hi1; lia|lra].
Qed.
End Signs.
