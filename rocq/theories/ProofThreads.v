(** ProofThreads: threads which write distinct cells do not interfere. *)
From Coq Require Import ZArith List String Bool Lia Permutation.
From Verif Require Import Base Num Common Threads SpecThreads.
Import ListNotations.

Lemma loc_eqb_spec l l' : reflect (l = l') (loc_eqb l l').
Proof.
  destruct l as [x i|t x|x], l' as [y j|u y|y]; cbn; try (right; discriminate).
  - destruct (String.eqb_spec x y) as [->|E]; cbn; [|right; congruence]. destruct (Z.eqb_spec i j) as [->|E]; [left; reflexivity|right; congruence].
  - destruct (Nat.eqb_spec t u) as [->|E]; cbn; [|right; congruence]. destruct (String.eqb_spec x y) as [->|E]; [left; reflexivity|right; congruence].
  - destruct (String.eqb_spec x y) as [->|E]; [left; reflexivity|right; congruence].
Qed.
Lemma hupd_same {N} (h : heap N) l v : hupd h l v l = Some v.
Proof. unfold hupd. destruct (loc_eqb_spec l l); congruence. Qed.
Lemma hupd_other {N} (h : heap N) l v l' : l <> l' -> hupd h l v l' = h l'.
Proof. intros H. unfold hupd. destruct (loc_eqb_spec l l'); congruence. Qed.

Local Open Scope nat_scope.
Section NI.
Context {N : Num}.
Variables (own : nat -> loc -> Prop) (common : loc -> Prop) (cv : loc -> value N).
Hypothesis own_inj : forall t u l, own t l -> own u l -> t = u.
Hypothesis own_common : forall t l, own t l -> ~ common l.
Definition readonly (l : loc) : Prop := ~ common l /\ forall t, ~ own t l.

(** Running thread [t] alone from [h] respects the footprint and ends in [Q]. *)
Fixpoint wp {A} (t : nat) (p : prog N A) (h : heap N) (Q : A -> heap N -> Prop) : Prop :=
  match p with
  | Ret a => Q a h
  | Fault _ => False
  | Load l k => (own t l \/ readonly l \/ (common l /\ h l = Some (cv l))) /\ match h l with Some v => wp t (k v) h Q | None => False end
  | Store l v p => (own t l \/ (common l /\ v = cv l)) /\ h l <> None /\ wp t p (hupd h l v) Q
  end.
Lemma wp_run {A} t (p : prog N A) : forall h Q, wp t p h Q -> exists a h', run p h = inl (a, h') /\ Q a h'.
Proof.
  induction p as [a|l k IH|l v p IH|f]; intros h Q H; cbn in *.
  - exists a, h. auto.
  - destruct H as [_ H]. destruct (h l) as [v|]; [|contradiction]. apply (IH v), H.
  - destruct H as (_ & H1 & H). destruct (h l) as [w|]; [|congruence]. apply IH, H.
  - contradiction.
Qed.
Lemma wp_mono {A} t (p : prog N A) : forall h (Q Q' : A -> heap N -> Prop), (forall a h', Q a h' -> Q' a h') -> wp t p h Q -> wp t p h Q'.
Proof.
  induction p as [a|l k IH|l v p IH|f]; intros h Q Q' M H; cbn in *; [apply M, H| | |exact H].
  - destruct H as [H0 H]. split; [exact H0|]. destruct (h l) as [v|]; [|exact H]. apply (IH v h Q Q' M H).
  - destruct H as (H0 & H1 & H). repeat split; try assumption. apply (IH _ Q Q' M H).
Qed.
Lemma wp_bind {A B} t (p : prog N A) (f : A -> prog N B) : forall h Q, wp t p h (fun a h' => wp t (f a) h' Q) -> wp t (pbind p f) h Q.
Proof.
  induction p as [a|l k IH|l v p IH|e]; intros h Q H; cbn in *; [exact H| | |exact H].
  - destruct H as [H0 H]. split; [exact H0|]. destruct (h l) as [v|]; [|exact H]. apply IH, H.
  - destruct H as (H0 & H1 & H). repeat split; try assumption. apply IH, H.
Qed.

Lemma wp_assoc {A B C} t (p : prog N A) (f : A -> prog N B) (g : B -> prog N C) : forall h Q, wp t (pbind (pbind p f) g) h Q -> wp t (pbind p (fun a => pbind (f a) g)) h Q.
Proof.
  induction p as [a|l k IH|l v p IH|e]; intros h Q H; cbn in *; [exact H| | |exact H].
  - destruct H as [H0 H]. split; [exact H0|]. destruct (h l) as [v|]; [|exact H]. apply IH, H.
  - destruct H as (H0 & H1 & H). repeat split; try assumption. apply IH, H.
Qed.
Lemma wp_bind_inv {A B} t (p : prog N A) (f : A -> prog N B) : forall h Q, wp t (pbind p f) h Q -> wp t p h (fun a h' => wp t (f a) h' Q).
Proof.
  induction p as [a|l k IH|l v p IH|e]; intros h Q H; cbn in *; [exact H| | |exact H].
  - destruct H as [H0 H]. split; [exact H0|]. destruct (h l) as [v|]; [|exact H]. apply IH, H.
  - destruct H as (H0 & H1 & H). repeat split; try assumption. apply IH, H.
Qed.

(** Number of accesses of a program alone. *)
Fixpoint cost {A} (p : prog N A) (h : heap N) : nat :=
  match p with
  | Ret _ | Fault _ => 0
  | Load l k => S (match h l with Some v => cost (k v) h | None => 0 end)
  | Store l v p => S (cost p (hupd h l v))
  end.

Variables (h0 : heap N) (ps0 : list (prog N unit)) (Q : nat -> heap N -> Prop).
(** [hp t]: the memory as thread [t] would have made it alone. *)
Record inv (h : heap N) (ps : list (prog N unit)) (hp : nat -> heap N) : Prop := {
  i_wp : forall t p, nth_error ps t = Some p -> wp t p (hp t) (fun _ => Q t);
  i_own : forall t l, own t l -> h l = hp t l;
  i_ro : forall l, readonly l -> h l = h0 l;
  i_ro' : forall t l, readonly l -> hp t l = h0 l;
  i_other : forall t u l, own t l -> u <> t -> hp u l = h0 l;
  i_com : forall l, common l -> h l = h0 l \/ h l = Some (cv l);
  i_com' : forall t l, common l -> hp t l = h0 l \/ hp t l = Some (cv l);
  i_sync : forall t l, common l -> hp t l = Some (cv l) -> h l = Some (cv l) }.
Definition put_heap (hp : nat -> heap N) (t : nat) (h : heap N) : nat -> heap N := fun u => if Nat.eqb u t then h else hp u.
Lemma nth_upd_same {A} (l : list A) t a x : nth_error l t = Some x -> nth_error (upd l t a) t = Some a.
Proof. revert t; induction l as [|y l IH]; intros [|t] H; cbn in *; try discriminate; [reflexivity|apply IH, H]. Qed.
Lemma nth_upd_other {A} (l : list A) t a u : u <> t -> nth_error (upd l t a) u = nth_error l u.
Proof. revert t u; induction l as [|y l IH]; intros [|t] [|u] H; cbn; try reflexivity; try congruence. apply IH. congruence. Qed.

Lemma inv_step h ps hp t p p' h' : inv h ps hp -> nth_error ps t = Some p -> tstep p h = Some (p', h') ->
  exists hp', inv h' (upd ps t p') hp' /\ cost p (hp t) = S (cost p' (hp' t)) /\ forall u, u <> t -> hp' u = hp u.
Proof.
  intros I Hp Hs. pose proof (i_wp _ _ _ I t p Hp) as W. destruct p as [a|l k|l v p|f]; cbn in Hs; try discriminate.
  - injection Hs as Hs <-. cbn in W. destruct W as [F W]. destruct (hp t l) as [v|] eqn:E; [|contradiction].
    assert (Hl : h l = Some v).
    { destruct F as [F|[F|[F F2]]].
      - rewrite (i_own _ _ _ I t l F). exact E.
      - rewrite (i_ro _ _ _ I l F). rewrite <- (i_ro' _ _ _ I t l F). exact E.
      - assert (E2 : Some v = Some (cv l)) by (rewrite <- F2; symmetry; congruence). rewrite (i_sync _ _ _ I t l F); congruence. }
    rewrite Hl in Hs. subst p'. exists hp. split; [|split; [cbn; rewrite E; reflexivity|reflexivity]].
    destruct I; constructor; try assumption. intros u q Hu. destruct (Nat.eq_dec u t) as [->|Ne].
    + rewrite (nth_upd_same _ _ _ _ Hp) in Hu. injection Hu as <-. exact W.
    + rewrite nth_upd_other in Hu by exact Ne. apply i_wp0, Hu.
  - cbn in W. destruct W as (F & E & W).
    assert (Hl : h l <> None).
    { destruct F as [F|[F F2]]; [rewrite (i_own _ _ _ I t l F); exact E|].
      destruct (i_com _ _ _ I l F) as [C|C]; [|congruence]. destruct (i_com' _ _ _ I t l F) as [D|D]; [congruence|].
      pose proof (i_sync _ _ _ I t l F D). congruence. }
    destruct (h l) as [w|] eqn:El; [|congruence]. injection Hs as <- <-.
    exists (put_heap hp t (hupd (hp t) l v)). split; [|split; [unfold put_heap; rewrite Nat.eqb_refl; reflexivity|intros u Hu; unfold put_heap; rewrite (proj2 (Nat.eqb_neq u t) Hu); reflexivity]].
    assert (P : forall u, put_heap hp t (hupd (hp t) l v) u = if Nat.eqb u t then hupd (hp t) l v else hp u) by reflexivity.
    constructor.
    + intros u q Hu. rewrite P. destruct (Nat.eqb_spec u t) as [->|Ne].
      * rewrite (nth_upd_same _ _ _ _ Hp) in Hu. injection Hu as <-. exact W.
      * rewrite nth_upd_other in Hu by exact Ne. apply (i_wp _ _ _ I), Hu.
    + intros u m Hm. rewrite P. destruct (Nat.eqb_spec u t) as [->|Ne].
      * destruct (loc_eqb_spec l m) as [->|Nl]; [rewrite !hupd_same; reflexivity|rewrite !hupd_other by exact Nl; apply (i_own _ _ _ I), Hm].
      * rewrite hupd_other; [apply (i_own _ _ _ I), Hm|]. intros ->. destruct F as [F|[F _]]; [exact (Ne (own_inj u t m Hm F))|exact (own_common u m Hm F)].
    + intros m Hm. rewrite hupd_other; [apply (i_ro _ _ _ I), Hm|]. intros ->. destruct Hm as [M1 M2]. destruct F as [F|[F _]]; [exact (M2 t F)|exact (M1 F)].
    + intros u m Hm. rewrite P. destruct (Nat.eqb u t); [|apply (i_ro' _ _ _ I), Hm].
      rewrite hupd_other; [apply (i_ro' _ _ _ I), Hm|]. intros ->. destruct Hm as [M1 M2]. destruct F as [F|[F _]]; [exact (M2 t F)|exact (M1 F)].
    + intros u u' m Hm Ne. rewrite P. destruct (Nat.eqb_spec u' t) as [->|Ne2]; [|apply (i_other _ _ _ I u), Ne; exact Hm].
      rewrite hupd_other; [apply (i_other _ _ _ I u), Ne; exact Hm|]. intros ->.
      destruct F as [F|[F _]]; [apply Ne; symmetry; exact (own_inj u t m Hm F)|exact (own_common u m Hm F)].
    + intros m Hm. destruct (loc_eqb_spec l m) as [->|Nl].
      * rewrite hupd_same. destruct F as [F|[_ ->]]; [destruct (own_common t m F Hm)|right; reflexivity].
      * rewrite hupd_other by exact Nl. apply (i_com _ _ _ I), Hm.
    + intros u m Hm. rewrite P. destruct (Nat.eqb_spec u t) as [->|Ne]; [|apply (i_com' _ _ _ I), Hm].
      destruct (loc_eqb_spec l m) as [->|Nl].
      * rewrite hupd_same. destruct F as [F|[_ ->]]; [destruct (own_common t m F Hm)|right; reflexivity].
      * rewrite hupd_other by exact Nl. apply (i_com' _ _ _ I), Hm.
    + intros u m Hm. rewrite P. destruct (loc_eqb_spec l m) as [->|Nl].
      * rewrite hupd_same. destruct F as [F|[_ ->]]; [destruct (own_common t m F Hm)|reflexivity].
      * rewrite (hupd_other h) by exact Nl. destruct (Nat.eqb_spec u t) as [->|Ne]; [rewrite hupd_other by exact Nl|]; apply (i_sync _ _ _ I), Hm.
Qed.

Fixpoint total (t : nat) (ps : list (prog N unit)) (hp : nat -> heap N) : nat :=
  match ps with [] => 0 | p :: ps => cost p (hp t) + total (S t) ps hp end.
Lemma total_upd ps : forall t0 hp hp' t p p', nth_error ps t = Some p -> cost p (hp (t0 + t)) = S (cost p' (hp' (t0 + t))) -> (forall u, u <> t0 + t -> hp' u = hp u) ->
  total t0 ps hp = S (total t0 (upd ps t p') hp').
Proof.
  assert (E : forall ps t0 (hp hp' : nat -> heap N), (forall u, t0 <= u -> hp' u = hp u) -> total t0 ps hp' = total t0 ps hp).
  { clear. induction ps as [|p ps IH]; intros t0 hp hp' H; cbn; [reflexivity|]. rewrite H by lia. rewrite (IH (S t0) hp hp'); [reflexivity|]. intros u Hu. apply H. lia. }
  induction ps as [|q ps IH]; intros t0 hp hp' [|t] p p' Hp Hc Ho; cbn in *; try discriminate.
  - injection Hp as ->. rewrite Nat.add_0_r in *. rewrite (E ps (S t0) hp hp') by (intros u Hu; apply Ho; lia). rewrite Hc. reflexivity.
  - rewrite (Ho t0) by lia. rewrite (IH (S t0) hp hp' t p p' Hp); [lia| |].
    + replace (S t0 + t) with (t0 + S t) by lia. exact Hc.
    + intros u Hu. apply Ho. lia.
Qed.
Lemma inv_reaches n (c c' : config N) : reaches n c c' -> forall hp, inv (fst c) (snd c) hp -> exists hp', inv (fst c') (snd c') hp' /\ total 0 (snd c) hp = (n + total 0 (snd c') hp')%nat.
Proof.
  induction 1 as [c|n h ps t p p' h' c Hp Hs Hr IH]; intros hp I; [exists hp; auto|]. cbn in I.
  destruct (inv_step h ps hp t p p' h' I Hp Hs) as (hp1 & I1 & C1 & O1). destruct (IH hp1 I1) as (hp2 & I2 & C2). exists hp2. split; [exact I2|].
  cbn [snd] in *. rewrite (total_upd ps 0 hp hp1 t p p' Hp C1 O1). rewrite C2. reflexivity.
Qed.

Hypothesis start : forall t p, nth_error ps0 t = Some p -> wp t p h0 (fun _ => Q t).
Lemma inv_start : inv h0 ps0 (fun _ => h0).
Proof. constructor; try reflexivity; auto; left; reflexivity. Qed.
Lemma reach_len n (c c' : config N) : reaches n c c' -> List.length (snd c') = List.length (snd c).
Proof. induction 1 as [c|n h ps t p p' h' c Hp Hs Hr IH]; [reflexivity|]. cbn [snd] in *. rewrite IH. clear. revert t. induction ps as [|q ps IH]; intros [|t]; cbn; congruence. Qed.

Theorem no_fault n (c : config N) : reaches n (h0, ps0) c -> ~ faulty c.
Proof.
  intros R (f & F). destruct (inv_reaches n _ c R _ inv_start) as (hp & I & _). apply In_nth_error in F as (t & F). exact (i_wp _ _ _ I t _ F).
Qed.
Theorem race_common n (c : config N) l : reaches n (h0, ps0) c -> race_on l c -> common l.
Proof.
  intros R (t & u & p & q & w & w' & Ne & Hp & Hq & Ap & Aq & W). destruct (inv_reaches n _ c R _ inv_start) as (hp & I & _).
  assert (F : forall t p w, nth_error (snd c) t = Some p -> access p = Some (l, w) -> own t l \/ common l \/ (readonly l /\ w = false)).
  { clear - I. intros t p w Hp Ha. pose proof (i_wp _ _ _ I t p Hp) as W. destruct p; cbn in *; try discriminate; injection Ha as -> <-.
    - destruct W as [[F|[F|[F _]]] _]; auto.
    - destruct W as [[F|[F _]] _]; auto. }
  destruct (F t p w Hp Ap) as [F1|[F1|[[F1 F1'] F1w]]]; [|exact F1|].
  - destruct (F u q w' Hq Aq) as [F2|[F2|[[F2 F2'] F2w]]]; [destruct Ne; exact (own_inj t u l F1 F2)|exact F2|destruct (F2' t F1)].
  - destruct (F u q w' Hq Aq) as [F2|[F2|[[F2 F2'] F2w]]]; [destruct (F1' u F2)|exact F2|]. subst. destruct W; discriminate.
Qed.
Theorem stops n (c : config N) : reaches n (h0, ps0) c -> (n <= total 0 ps0 (fun _ => h0))%nat.
Proof. intros R. destruct (inv_reaches n _ c R _ inv_start) as (hp & _ & E). cbn [snd] in E. lia. Qed.
Theorem not_stuck n (c : config N) : reaches n (h0, ps0) c -> finished c \/ can_step c.
Proof.
  intros R. pose proof (no_fault n c R) as NF.
  assert (D : forall l : list (prog N unit), (forall p, In p l -> forall f, p <> Fault f) -> (forall p, In p l -> p = Ret tt) \/ exists t p, nth_error l t = Some p /\ forall h, tstep p h <> None).
  { clear. induction l as [|p l IH]; intros H; [left; intros q []|].
    destruct IH as [A|(t & q & A & B)]; [intros q Hq; apply H; right; exact Hq| |right; exists (S t), q; auto].
    destruct p as [[]|lo k|lo v p|f].
    - left. intros q [<-|Hq]; [reflexivity|apply A, Hq].
    - right. exists 0, (Load lo k). split; [reflexivity|discriminate].
    - right. exists 0, (Store lo v p). split; [reflexivity|]. intros h. cbn. destruct (h lo); discriminate.
    - destruct (H (Fault f) (or_introl eq_refl) f eq_refl). }
  destruct (D (snd c)) as [A|(t & p & A & B)].
  - intros p Hp f ->. apply NF. exists f. exact Hp.
  - left. exact A.
  - right. destruct (tstep p (fst c)) as [[p' h']|] eqn:E; [exists t, p, p', h'; auto|destruct (B _ E)].
Qed.
Theorem result n (c : config N) : reaches n (h0, ps0) c -> finished c ->
  exists hp, (forall t, (t < List.length ps0)%nat -> Q t (hp t)) /\ (forall t l, own t l -> fst c l = hp t l) /\
    (forall l, readonly l -> fst c l = h0 l) /\ (forall l, common l -> fst c l = h0 l \/ fst c l = Some (cv l)) /\
    (forall t l, common l -> hp t l = Some (cv l) -> fst c l = Some (cv l)).
Proof.
  intros R F. destruct (inv_reaches n _ c R _ inv_start) as (hp & I & _). exists hp. split; [|split; [apply (i_own _ _ _ I)|split; [apply (i_ro _ _ _ I)|split; [apply (i_com _ _ _ I)|apply (i_sync _ _ _ I)]]]].
  intros t Ht. rewrite <- (reach_len _ _ _ R) in Ht || (pose proof (reach_len _ _ _ R) as L; cbn [snd] in L; rewrite <- L in Ht).
  destruct (nth_error (snd c) t) as [p|] eqn:E; [|apply nth_error_None in E; lia]. pose proof (i_wp _ _ _ I t p E) as W. rewrite (F p) in W by (apply nth_error_In in E; exact E). exact W.
Qed.
(** Some interleaving ends (the threads one after the other, for instance). *)
Theorem can_end : forall n (c : config N), reaches n (h0, ps0) c -> exists m c', reaches m c c' /\ finished c'.
Proof.
  intros n c R. assert (E : exists k, (total 0 ps0 (fun _ => h0) - n <= k)%nat) by eauto. destruct E as (k & E). revert n c R E. induction k as [|k IH]; intros n c R E.
  - destruct (not_stuck n c R) as [F|(t & p & p' & h' & Hp & Hs)]; [exists 0, c; split; [constructor|exact F]|exfalso].
    assert (R2 : reaches (S n) (h0, ps0) (h', upd (snd c) t p')).
    { clear - R Hp Hs. induction R as [c|n h ps u q q' g c Hq Hqs Hr IH]; [destruct c as [h ps]; eapply r_step; [exact Hp|exact Hs|constructor]|eapply r_step; [exact Hq|exact Hqs|apply IH; assumption]]. }
    pose proof (stops _ _ R2). lia.
  - destruct (not_stuck n c R) as [F|(t & p & p' & h' & Hp & Hs)]; [exists 0, c; split; [constructor|exact F]|].
    assert (R2 : reaches (S n) (h0, ps0) (h', upd (snd c) t p')).
    { clear - R Hp Hs. induction R as [c|n h ps u q q' g c Hq Hqs Hr IH]; [destruct c as [h ps]; eapply r_step; [exact Hp|exact Hs|constructor]|eapply r_step; [exact Hq|exact Hqs|apply IH; assumption]]. }
    destruct (IH _ _ R2) as (m & c' & R3 & F); [lia|]. exists (S m), c'. split; [|exact F]. destruct c as [h ps]. eapply r_step; [exact Hp|exact Hs|exact R3].
Qed.
End NI.
