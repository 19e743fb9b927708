(** LegendreRoots: P_n has n distinct real roots, all in (-1,1); distance to the nearest root. *)
From Coq Require Import Reals Lra Lia List.
From Coquelicot Require Import Coquelicot.
From Verif Require Import Spec Poly Legendre.
Import ListNotations.
Local Open Scope R_scope.

(** Values of alternating signs, the first of the sign of [s]. *)
Fixpoint alt (s : R) (f : R -> R) (l : list R) : Prop :=
  match l with [] => True | x :: l => 0 < s * f x /\ alt (- s) f l end.
Lemma alt_scale c s f g l : 0 < c -> (forall x, In x l -> g x = c * f x) -> alt s f l -> alt s g l.
Proof.
  intros Hc. revert s; induction l as [|x l IH]; intros s He; cbn [alt]; [auto|].
  intros [H1 H2]; split.
  - rewrite He by (cbn; auto). replace (s * (c * f x)) with (c * (s * f x)) by ring. apply Rmult_lt_0_compat; assumption.
  - apply IH; [intros; apply He; cbn; auto|exact H2].
Qed.
Lemma alt_flip c s f g l : c < 0 -> (forall x, In x l -> g x = c * f x) -> alt s f l -> alt (- s) g l.
Proof.
  intros Hc. revert s; induction l as [|x l IH]; intros s He; cbn [alt]; [auto|].
  intros [H1 H2]; split.
  - rewrite He by (cbn; auto). replace (- s * (c * f x)) with ((- c) * (s * f x)) by ring. apply Rmult_lt_0_compat; [lra|assumption].
  - apply IH; [intros; apply He; cbn; auto|exact H2].
Qed.

(** [between hi rs ss]: decreasing [rs] below [hi], and [ss] has one element in each gap
    (hi, r1), (r1, r2), ... *)
Fixpoint between (hi : R) (rs ss : list R) : Prop :=
  match rs, ss with
  | [], [] => True
  | r :: rs, s :: ss => r < s < hi /\ between r rs ss
  | _, _ => False
  end.
Fixpoint decr (hi : R) (rs : list R) : Prop :=
  match rs with [] => True | r :: rs => r < hi /\ decr r rs end.
Lemma decr_lt hi rs x : decr hi rs -> In x rs -> x < hi.
Proof.
  revert hi; induction rs as [|r rs IH]; intros hi; cbn; [tauto|].
  intros [H1 H2] [->|H]; [exact H1|]. specialize (IH _ H2 H). lra.
Qed.
Lemma decr_weaken hi hi' rs : hi <= hi' -> decr hi rs -> decr hi' rs.
Proof. destruct rs; cbn; [auto|]. intros ? [? ?]; split; [lra|assumption]. Qed.
Lemma between_decr hi rs ss : between hi rs ss -> decr hi ss /\ length ss = length rs.
Proof.
  revert hi ss; induction rs as [|r rs IH]; intros hi [|s ss]; cbn; try tauto.
  intros [H1 H2]. destruct (IH _ _ H2) as [H3 H4]. split; [|lia].
  split; [lra|]. apply (decr_weaken r); [lra|exact H3].
Qed.

Lemma ivt_root (f : R -> R) a b : (forall x, continuous f x) -> a < b -> f a * f b < 0 -> exists z, a < z < b /\ f z = 0.
Proof.
  intros Hc Hab Hs.
  assert (Hf : continuity f).
  { intros x. apply continuity_pt_filterlim. apply Hc. }
  destruct (IVT_cor f a b Hf ltac:(lra) ltac:(lra)) as [z [[H1 H2] H3]].
  exists z; split; [|exact H3].
  assert (z <> a) by (intros ->; rewrite H3 in Hs; lra).
  assert (z <> b) by (intros ->; rewrite H3 in Hs; lra). lra.
Qed.
Lemma alt_roots (f : R -> R) : (forall x, continuous f x) -> forall rs hi s, 0 < s * f hi -> alt (- s) f rs -> decr hi rs ->
  s * s = 1 ->
  exists ss, between hi rs ss /\ forall z, In z ss -> f z = 0.
Proof.
  intros Hc. induction rs as [|r rs IH]; intros hi s H0 Ha Hd Hss.
  - exists []; cbn; tauto.
  - destruct Ha as [Hr Ha]. destruct Hd as [Hlt Hd].
    destruct (ivt_root f r hi Hc Hlt) as [z [Hz1 Hz2]].
    { assert (0 < (s * f hi) * (- s * f r)) by (apply Rmult_lt_0_compat; assumption).
      replace (s * f hi * (- s * f r)) with (- (s * s) * (f r * f hi)) in H by ring. rewrite Hss in H. lra. }
    destruct (IH r (- s) Hr Ha Hd ltac:(lra)) as [ss [H1 H2]].
    exists (z :: ss); split; [cbn; split; [exact Hz1|exact H1]|]. intros y [<-|Hy]; auto.
Qed.

(** Sign of the product of (x - r) at interlaced points. *)
Lemma prodr_pos rs x : (forall r, In r rs -> r < x) -> 0 < prodr rs x.
Proof.
  induction rs as [|r rs IH]; intros H; cbn; [lra|].
  apply Rmult_lt_0_compat; [specialize (H r (or_introl eq_refl)); lra|]. apply IH; intros; apply H; cbn; auto.
Qed.
(** [ss] has one more element than [rs]: s1 > r1 > s2 > r2 > ... > r_n > s_(n+1). *)
Fixpoint inter (rs ss : list R) : Prop :=
  match rs, ss with
  | [], [s] => True
  | r :: rs, s :: ss => r < s /\ (forall t, In t ss -> t < r) /\ (forall q, In q rs -> q < r) /\ inter rs ss
  | _, _ => False
  end.
Lemma prodr_alt rs ss : inter rs ss -> alt 1 (prodr rs) ss.
Proof.
  revert ss; induction rs as [|r rs IH]; intros [|s ss]; cbn [inter]; try tauto.
  - destruct ss; [|tauto]. intros _. cbn. lra.
  - intros [H1 [H2 [H3 H4]]]. cbn [alt]. split.
    + rewrite Rmult_1_l. apply prodr_pos. intros q [->|Hq]; [exact H1|]. specialize (H3 _ Hq); lra.
    + specialize (IH _ H4). clear H4 H1.
      assert (G : forall l s0 f, (forall t, In t l -> t < r) -> alt s0 f l -> alt (- s0) (fun x => (x - r) * f x) l).
      { induction l as [|t l IHl]; intros s0 f Hl; cbn [alt]; [auto|]. intros [Ha Hb]; split.
        - specialize (Hl t (or_introl eq_refl)). replace (- s0 * ((t - r) * f t)) with ((r - t) * (s0 * f t)) by ring.
          apply Rmult_lt_0_compat; lra.
        - apply IHl; [intros; apply Hl; cbn; auto|exact Hb]. }
      apply (G ss 1 (prodr rs) H2 IH).
Qed.

(** From gaps of (1 :: rs ++ [-1]) to [inter]. *)
Lemma between_inter rs : forall hi lo ss, between hi (rs ++ [lo]) ss -> decr hi rs -> inter rs ss.
Proof.
  induction rs as [|r rs IH]; intros hi lo ss; cbn [app between].
  - destruct ss as [|s [|s' ss]]; cbn; tauto.
  - destruct ss as [|s ss]; [tauto|]. intros [H1 H2] [H3 H4]. cbn [inter].
    destruct (between_decr _ _ _ H2) as [H5 _].
    split; [lra|]. split; [intros t Ht; apply (decr_lt _ _ _ H5 Ht)|].
    split; [intros q Hq; apply (decr_lt _ _ _ H4 Hq)|]. apply (IH r lo); assumption.
Qed.
Lemma between_lo rs : forall hi lo ss, between hi (rs ++ [lo]) ss -> decr hi (rs ++ [lo]) -> forall t, In t ss -> lo < t.
Proof.
  assert (G : forall rs hi lo, decr hi (rs ++ [lo]) -> forall q, In q rs -> lo < q).
  { intros rs'; induction rs' as [|r' rs' IH']; intros hi' lo'; cbn; [tauto|]. intros [H1 H2] q [<-|Hq].
    - apply (decr_lt _ _ _ H2). apply in_or_app; right; cbn; auto.
    - apply (IH' _ _ H2 _ Hq). }
  induction rs as [|r rs IH]; intros hi lo ss; cbn [app between decr].
  - destruct ss as [|s [|s' ss]]; cbn; try tauto. intros [H _] _ t [<-|[]]; lra.
  - destruct ss as [|s ss]; [tauto|]. intros [H1 H2] [H3 H4] t [<-|Ht].
    + assert (lo < r) by (apply (decr_lt _ _ _ H4); apply in_or_app; right; cbn; auto). lra.
    + apply (IH _ _ _ H2 H4 _ Ht).
Qed.
Lemma decr_nodup hi rs : decr hi rs -> NoDup rs.
Proof.
  revert hi; induction rs as [|r rs IH]; intros hi; cbn; [constructor|].
  intros [_ H]; constructor; [|apply (IH _ H)]. intros Hin. pose proof (decr_lt _ _ _ H Hin). lra.
Qed.

Lemma L_continuous n x : continuous (L n) x.
Proof. apply (polyfun_continuous (S n)), polyfun_L. Qed.

(** P_n is a positive multiple of the product over n of its roots. *)
Lemma L_factor n rs : NoDup rs -> length rs = n -> (forall r, In r rs -> L n r = 0 /\ r < 1) ->
  exists c, 0 < c /\ forall x, L n x = c * prodr rs x.
Proof.
  intros Hnd Hlen Hr. destruct (polyfun_L n) as [pl [Ll El]].
  destruct (divide_roots rs pl 1 Hnd ltac:(lia)) as [c [Lc Ec]].
  { intros z Hz. rewrite <- El. apply Hr; exact Hz. }
  assert (Hp : 0 < prodr rs 1) by (apply prodr_pos; intros; apply Hr; assumption).
  destruct c as [|c0 [|c1 c]]; cbn in Lc; try lia.
  - exfalso. pose proof (L_at_1 n) as H1. rewrite El, Ec in H1. cbn in H1. lra.
  - exists c0. assert (E : forall x, L n x = c0 * prodr rs x) by (intros x; rewrite El, Ec; cbn; ring).
    split; [|exact E]. pose proof (L_at_1 n) as H1. rewrite E in H1.
    destruct (Rlt_le_dec 0 c0) as [H|H]; [exact H|]. nra.
Qed.

Lemma alt_app s f rs x : alt s f rs -> 0 < s * (-1) ^ length rs * f x -> alt s f (rs ++ [x]).
Proof.
  revert s; induction rs as [|r rs IH]; intros s; cbn [alt app length pow].
  - intros _ H. split; [|exact I]. lra.
  - intros [H1 H2] H. split; [exact H1|]. apply IH; [exact H2|].
    replace (- s * (-1) ^ length rs * f x) with (s * (-1 * (-1) ^ length rs) * f x) by ring. exact H.
Qed.
Lemma decr_app hi rs lo : decr hi rs -> (forall r, In r rs -> lo < r) -> lo < hi -> decr hi (rs ++ [lo]).
Proof.
  revert hi; induction rs as [|r rs IH]; intros hi; cbn; [auto|].
  intros [H1 H2] H _; split; [exact H1|]. apply IH; auto.
Qed.

(** Main induction: decreasing roots of P_(n+1), with P_n of alternating signs there. *)
Lemma L_roots_aux n : exists rs, length rs = S n /\ decr 1 rs /\ (forall r, In r rs -> -1 < r < 1 /\ L (S n) r = 0) /\
  alt 1 (L n) rs.
Proof.
  induction n as [|n [rs [Hlen [Hd [Hr Ha]]]]].
  - exists [0]. split; [reflexivity|]. split; [cbn; lra|]. split.
    + intros r [<-|[]]. rewrite L_1. lra.
    + cbn [alt]. rewrite L_0. lra.
  - (* signs of P_(n+2) at 1, roots, -1 *)
    assert (HS : alt (-1) (L (S (S n))) rs).
    { replace (-1) with (- (1)) by ring.
      apply (alt_flip (- (INR (S n) / (INR (S n) + 1))) 1 (L n)).
      - pose proof (INR1 (S n)). pose proof (lt_0_INR (S n) ltac:(lia)).
        assert (0 < INR (S n) / (INR (S n) + 1)) by (apply Rdiv_lt_0_compat; assumption). lra.
      - intros x Hx. rewrite L_SS. destruct (Hr _ Hx) as [_ ->]. pose proof (INR1 (S n)). field. lra.
      - exact Ha. }
    assert (HS' : alt (-1) (L (S (S n))) (rs ++ [-1])).
    { apply alt_app; [exact HS|]. rewrite Hlen. replace (L (S (S n)) (-1)) with ((-1) ^ S (S n)).
      - replace (-1 * (-1) ^ S n * (-1) ^ S (S n)) with ((-1) ^ (S (S n) + S (S n))).
        + rewrite pow_add. assert (Hsq : (-1) ^ S (S n) * (-1) ^ S (S n) = 1).
          { rewrite <- Rpow_mult_distr. replace (-1 * -1) with 1 by ring. apply pow1. }
          lra.
        + rewrite pow_add. cbn [pow]. ring.
      - replace (L (S (S n)) (-1)) with (L (S (S n)) (- (1))) by (f_equal; ring). rewrite L_parity, L_at_1. ring. }
    assert (Hd' : decr 1 (rs ++ [-1])) by (apply decr_app; [exact Hd|intros r Hin; apply Hr; exact Hin|lra]).
    destruct (alt_roots (L (S (S n))) (L_continuous _) (rs ++ [-1]) 1 1) as [ss [Hb Hz]].
    { rewrite L_at_1; lra. } { exact HS'. } { exact Hd'. } { ring. }
    destruct (between_decr _ _ _ Hb) as [Hds Hls]. rewrite app_length in Hls. cbn in Hls.
    exists ss. split; [lia|]. split; [exact Hds|]. split.
    + intros r Hin. split; [|apply Hz; exact Hin]. split; [apply (between_lo _ _ _ _ Hb Hd' _ Hin)|apply (decr_lt _ _ _ Hds Hin)].
    + destruct (L_factor (S n) rs (decr_nodup _ _ Hd) Hlen) as [c [Hc Ec]].
      { intros r Hin. destruct (Hr _ Hin); split; [assumption|lra]. }
      apply (alt_scale c 1 (prodr rs)); [exact Hc|intros; apply Ec|]. apply prodr_alt. apply (between_inter _ _ _ _ Hb Hd).
Qed.

(** P_n has n distinct roots, all in (-1,1). *)
Lemma L_roots n : exists rs, length rs = n /\ NoDup rs /\ forall r, In r rs -> -1 < r < 1 /\ L n r = 0.
Proof.
  destruct n as [|n].
  - exists []. split; [reflexivity|]. split; [constructor|intros r []].
  - destruct (L_roots_aux n) as [rs [H1 [H2 [H3 _]]]]. exists rs. split; [exact H1|]. split; [apply (decr_nodup _ _ H2)|exact H3].
Qed.

(** Newton correction small implies a root nearby. *)
Fixpoint dprodr (zs : list R) (x : R) : R := match zs with [] => 0 | z :: zs => prodr zs x + (x - z) * dprodr zs x end.
Lemma is_derive_prodr zs x : is_derive (prodr zs) x (dprodr zs x).
Proof.
  induction zs as [|z zs IH]; cbn [prodr dprodr].
  - apply (is_derive_const (1 : R) x).
  - assert (H : is_derive (fun t : R => t - z) x 1).
    { pose proof (is_derive_minus (fun t : R => t) (fun _ => z) x 1 0 (is_derive_idR x) (is_derive_const z x)) as H.
      match type of H with is_derive _ _ ?v => replace 1 with v; [exact H|] end.
      unfold minus, plus, opp; cbn; ring. }
    pose proof (is_derive_mult (fun t : R => t - z) (prodr zs) x 1 _ H IH Rmult_comm) as D.
    match type of D with is_derive _ _ ?v => match goal with |- is_derive _ _ ?w => replace w with v; [exact D|] end end.
    unfold mult, plus; cbn. ring.
Qed.
Lemma dprodr_bound zs x d : 0 < d -> (forall z, In z zs -> d < Rabs (x - z)) ->
  Rabs (dprodr zs x) * d <= INR (length zs) * Rabs (prodr zs x).
Proof.
  intros Hd. induction zs as [|z zs IH]; intros H; cbn [prodr dprodr length].
  - rewrite Rabs_R0. cbn. lra.
  - rewrite S_INR. assert (Hz : d < Rabs (x - z)) by (apply H; cbn; auto).
    assert (IH' : Rabs (dprodr zs x) * d <= INR (length zs) * Rabs (prodr zs x)) by (apply IH; intros; apply H; cbn; auto).
    rewrite Rabs_mult.
    apply Rle_trans with ((Rabs (prodr zs x) + Rabs (x - z) * Rabs (dprodr zs x)) * d).
    + apply Rmult_le_compat_r; [lra|]. rewrite <- Rabs_mult. apply Rabs_triang.
    + pose proof (Rabs_pos (prodr zs x)). pose proof (Rabs_pos (dprodr zs x)).
      assert (Rabs (prodr zs x) * d <= Rabs (x - z) * Rabs (prodr zs x)) by nra.
      assert (Rabs (x - z) * (Rabs (dprodr zs x) * d) <= Rabs (x - z) * (INR (length zs) * Rabs (prodr zs x)))
        by (apply Rmult_le_compat_l; lra). nra.
Qed.
Lemma near_root n x eps : (1 <= n)%nat -> 0 <= eps -> DL n x <> 0 -> Rabs (L n x) <= eps * Rabs (DL n x) ->
  exists r, -1 < r < 1 /\ L n r = 0 /\ Rabs (x - r) <= INR n * eps.
Proof.
  intros Hn He HD HL. destruct (L_roots n) as [rs [H1 [H2 H3]]].
  destruct (L_factor n rs H2 H1) as [c [Hc Ec]].
  { intros r Hin. destruct (H3 _ Hin); split; [assumption|lra]. }
  assert (ED : DL n x = c * dprodr rs x).
  { pose proof (is_derive_L n x) as D1.
    pose proof (is_derive_scal (prodr rs) x c _ (is_derive_prodr rs x)) as D2.
    apply (is_derive_ext _ (L n)) in D2; [|intros t; rewrite Ec; reflexivity].
    apply is_derive_unique in D1. apply is_derive_unique in D2. rewrite D1 in D2. exact D2. }
  assert (Hdec : (exists r, In r rs /\ Rabs (x - r) <= INR n * eps) \/ (forall r, In r rs -> INR n * eps < Rabs (x - r))).
  { clear. induction rs as [|r rs [[q [Hq1 Hq2]]|IH]].
    - right; intros r [].
    - left; exists q; split; [cbn; auto|exact Hq2].
    - destruct (Rle_lt_dec (Rabs (x - r)) (INR n * eps)) as [H|H].
      + left; exists r; split; [cbn; auto|exact H].
      + right; intros q [<-|Hq]; auto. }
  destruct Hdec as [[r [Hin Hle]]|Hfar].
  - exists r. destruct (H3 _ Hin). auto.
  - exfalso.
    assert (HnR : 1 <= INR n) by (change 1 with (INR 1); apply le_INR; lia).
    (* a strictly larger distance still works *)
    assert (Hex : exists d, 0 < d /\ INR n * eps < d /\ forall r, In r rs -> d < Rabs (x - r)).
    { assert (G : forall l, (forall r, In r l -> INR n * eps < Rabs (x - r)) ->
                exists d, 0 < d /\ INR n * eps < d /\ forall r, In r l -> d < Rabs (x - r)).
      { assert (Hp : 0 <= INR n * eps) by nra.
        induction l as [|r l IHl]; intros Hl.
        - exists (INR n * eps + 1). split; [lra|]. split; [lra|intros r []].
        - destruct IHl as [d [Hd1 [Hd2 Hd3]]]; [intros; apply Hl; cbn; auto|].
          specialize (Hl r (or_introl eq_refl)).
          exists (Rmin d ((INR n * eps + Rabs (x - r)) / 2)).
          split; [apply Rmin_glb_lt; lra|]. split; [apply Rmin_glb_lt; lra|].
          intros q [<-|Hq].
          + eapply Rle_lt_trans; [apply Rmin_r|lra].
          + eapply Rle_lt_trans; [apply Rmin_l|apply Hd3; exact Hq]. }
      apply G; exact Hfar. }
    destruct Hex as [d [Hd1 [Hd2 Hd3]]].
    pose proof (dprodr_bound rs x d Hd1 Hd3) as HB. rewrite H1 in HB.
    rewrite Ec, ED, !Rabs_mult in HL. rewrite (Rabs_right c) in HL by lra.
    assert (HL' : Rabs (prodr rs x) <= eps * Rabs (dprodr rs x)) by nra.
    assert (Hdp : 0 < Rabs (dprodr rs x)).
    { apply Rabs_pos_lt. intros E. apply HD. rewrite ED, E. ring. }
    assert (INR n * Rabs (prodr rs x) <= INR n * (eps * Rabs (dprodr rs x))) by (apply Rmult_le_compat_l; lra).
    nra.
Qed.
