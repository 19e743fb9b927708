(** BaseFacts: lemmas about the vocabulary of [Base] and [Num]. *)
From Verif Require Import Base Num.
From Coq Require Import Reals Lra.
Local Open Scope Z_scope.

(** ** size_t *)
Lemma u64_small z : 0 <= z < SIZE_T -> u64 z = z.
Proof. intros H; unfold u64; apply Z.mod_small; exact H. Qed.
Lemma u64_range z : 0 <= u64 z < SIZE_T.
Proof. apply Z.mod_pos_bound; reflexivity. Qed.
Lemma u64_m1 : u64 (-1) = SIZE_T - 1.
Proof. reflexivity. Qed.

(** ** arrays *)
Definition znth {A} (d : A) (l : list A) (i : Z) : A := nth (Z.to_nat i) l d.

Lemma zlen_nonneg {A} (l : list A) : 0 <= zlen l.
Proof. unfold zlen; lia. Qed.
Lemma zlen_repeat {A} (a : A) n : 0 <= n -> zlen (repeat a (Z.to_nat n)) = n.
Proof. intros H; unfold zlen; rewrite repeat_length; lia. Qed.
Lemma zlen_skipn {A} (l : list A) n : 0 <= n <= zlen l -> zlen (skipn (Z.to_nat n) l) = zlen l - n.
Proof. intros H; unfold zlen in *; rewrite skipn_length; lia. Qed.

Lemma rd_ok {A} (d : A) l i : 0 <= i < zlen l -> rd l i = Ok (znth d l i).
Proof.
  intros H; unfold rd, znth.
  destruct (Z.leb_spec 0 i); [|lia]. destruct (Z.ltb_spec i (zlen l)); [|lia]. cbn [andb].
  rewrite (nth_error_nth' l d) by (unfold zlen in *; lia). reflexivity.
Qed.
Lemma rd_inv {A} (d : A) l i a : rd l i = Ok a -> 0 <= i < zlen l /\ a = znth d l i.
Proof.
  unfold rd, znth; intros H.
  destruct (Z.leb_spec 0 i); [|discriminate]. destruct (Z.ltb_spec i (zlen l)); [|discriminate].
  cbn [andb] in H. rewrite (nth_error_nth' l d) in H by (unfold zlen in *; lia).
  injection H as <-. split; [lia|reflexivity].
Qed.
Lemma rd_oob {A} (l : list A) i : i < 0 \/ zlen l <= i -> rd l i = Err OOB.
Proof.
  intros H; unfold rd.
  destruct (Z.leb_spec 0 i); [|reflexivity]. destruct (Z.ltb_spec i (zlen l)); [lia|reflexivity].
Qed.

Lemma upd_length {A} (l : list A) n a : length (upd l n a) = length l.
Proof. revert n; induction l as [|h t IH]; intros [|n]; cbn; auto. Qed.
Lemma upd_nth {A} (d : A) l n m a :
  (n < length l)%nat -> nth m (upd l n a) d = if Nat.eqb m n then a else nth m l d.
Proof.
  revert n m; induction l as [|h t IH]; intros [|n] [|m] H; cbn in *; try lia; auto.
  apply IH; lia.
Qed.
Lemma wr_ok {A} (l : list A) i a : 0 <= i < zlen l -> wr l i a = Ok (upd l (Z.to_nat i) a).
Proof.
  intros H; unfold wr.
  destruct (Z.leb_spec 0 i); [|lia]. destruct (Z.ltb_spec i (zlen l)); [|lia]. reflexivity.
Qed.
Lemma wr_inv {A} (l : list A) i a l' : wr l i a = Ok l' -> 0 <= i < zlen l /\ l' = upd l (Z.to_nat i) a.
Proof.
  unfold wr; intros H.
  destruct (Z.leb_spec 0 i); [|discriminate]. destruct (Z.ltb_spec i (zlen l)); [|discriminate].
  injection H as <-. split; [lia|reflexivity].
Qed.
Lemma wr_oob {A} (l : list A) i a : i < 0 \/ zlen l <= i -> wr l i a = Err OOB.
Proof.
  intros H; unfold wr.
  destruct (Z.leb_spec 0 i); [|reflexivity]. destruct (Z.ltb_spec i (zlen l)); [lia|reflexivity].
Qed.
Lemma zlen_upd {A} (l : list A) n a : zlen (upd l n a) = zlen l.
Proof. unfold zlen; now rewrite upd_length. Qed.
Lemma znth_upd {A} (d : A) l i j a :
  0 <= i < zlen l -> 0 <= j -> znth d (upd l (Z.to_nat i) a) j = if j =? i then a else znth d l j.
Proof.
  intros H Hj; unfold znth; rewrite upd_nth by (unfold zlen in *; lia).
  destruct (Z.eqb_spec j i) as [->|Hn]; [now rewrite Nat.eqb_refl|].
  destruct (Nat.eqb_spec (Z.to_nat j) (Z.to_nat i)); [lia|reflexivity].
Qed.
Lemma znth_ext {A} (d : A) l l' :
  zlen l = zlen l' -> (forall i, 0 <= i < zlen l -> znth d l i = znth d l' i) -> l = l'.
Proof.
  intros Hl H. apply (nth_ext l l' d d); [unfold zlen in Hl; lia|].
  intros n Hn. specialize (H (Z.of_nat n)). unfold znth in H. rewrite Nat2Z.id in H.
  apply H; unfold zlen; lia.
Qed.
Lemma znth_skipn {A} (d : A) l n i : 0 <= n -> 0 <= i ->
  znth d (skipn (Z.to_nat n) l) i = znth d l (n + i).
Proof.
  intros Hn Hi; unfold znth. rewrite Z2Nat.inj_add by lia.
  revert l; induction (Z.to_nat n) as [|m IH]; intros l; [reflexivity|].
  destruct l as [|h t]; cbn [skipn plus nth]; [destruct (Z.to_nat i); reflexivity|apply IH].
Qed.
Lemma znth_repeat {A} (d a : A) n i : 0 <= i < n -> znth d (repeat a (Z.to_nat n)) i = a.
Proof.
  intros H; unfold znth.
  assert (Hlt : (Z.to_nat i < Z.to_nat n)%nat) by lia. revert Hlt.
  generalize (Z.to_nat i), (Z.to_nat n); clear.
  intros i n; revert i; induction n as [|n IH]; intros [|i] H; cbn; try lia; auto. apply IH; lia.
Qed.
Lemma znth_In {A} (d : A) l i : 0 <= i < zlen l -> In (znth d l i) l.
Proof. intros H; apply nth_In; unfold zlen in H; lia. Qed.
Lemma In_znth {A} (d : A) l a : In a l -> exists i, 0 <= i < zlen l /\ znth d l i = a.
Proof.
  intros H; destruct (In_nth l a d H) as [n [Hn He]]. exists (Z.of_nat n); unfold zlen, znth.
  rewrite Nat2Z.id; split; [lia|exact He].
Qed.
Lemma znth_app1 {A} (d : A) l l' i : 0 <= i < zlen l -> znth d (l ++ l') i = znth d l i.
Proof. intros H; unfold znth; apply app_nth1; unfold zlen in H; lia. Qed.
Lemma znth_cons {A} (d : A) a l i : 0 < i -> znth d (a :: l) i = znth d l (i - 1).
Proof.
  intros H; unfold znth. replace (Z.to_nat i) with (S (Z.to_nat (i - 1))) by lia. reflexivity.
Qed.
Lemma zlen_cons {A} (a : A) l : zlen (a :: l) = zlen l + 1.
Proof. unfold zlen; cbn [length]; lia. Qed.

(** ** loops *)
Lemma loop_inv {S} (P : Z -> S -> Prop) body n i s :
  P i s ->
  (forall j s, i <= j < i + Z.of_nat n -> P j s -> exists s', body j s = Ok s' /\ P (j + 1) s') ->
  exists s', loop n i body s = Ok s' /\ P (i + Z.of_nat n) s'.
Proof.
  revert i s; induction n as [|n IH]; intros i s H Hb.
  - exists s; split; [reflexivity|]. now rewrite Z.add_0_r.
  - cbn [loop]. destruct (Hb i s) as [s1 [E1 H1]]; [lia|exact H|]. rewrite E1; cbn [bind].
    destruct (IH (i + 1) s1 H1) as [s2 [E2 H2]]; [intros; apply Hb; [lia|assumption]|].
    exists s2; split; [exact E2|]. replace (i + Z.of_nat (Datatypes.S n)) with (i + 1 + Z.of_nat n) by lia.
    exact H2.
Qed.
Lemma for_inv {S} (P : Z -> S -> Prop) lo hi body s :
  lo <= hi -> P lo s ->
  (forall j s, lo <= j < hi -> P j s -> exists s', body j s = Ok s' /\ P (j + 1) s') ->
  exists s', for_ lo hi body s = Ok s' /\ P hi s'.
Proof.
  intros Hle H Hb. unfold for_.
  destruct (loop_inv P body (Z.to_nat (hi - lo)) lo s H) as [s' [E Hs]].
  - intros j s0 Hj; apply Hb; lia.
  - exists s'; split; [exact E|]. replace hi with (lo + Z.of_nat (Z.to_nat (hi - lo))) by lia. exact Hs.
Qed.
Lemma for_empty {S} lo hi body (s : S) : hi <= lo -> for_ lo hi body s = Ok s.
Proof. intros H; unfold for_. replace (Z.to_nat (hi - lo)) with 0%nat by lia. reflexivity. Qed.
Lemma for_step {S} lo hi body (s : S) : lo < hi ->
  for_ lo hi body s = (s' <- body lo s ;; for_ (lo + 1) hi body s').
Proof.
  intros H; unfold for_. replace (Z.to_nat (hi - lo)) with (Datatypes.S (Z.to_nat (hi - (lo + 1)))) by lia.
  reflexivity.
Qed.
Lemma for_ext {S} lo hi (b1 b2 : Z -> S -> res S) s :
  (forall i s, lo <= i < hi -> b1 i s = b2 i s) -> for_ lo hi b1 s = for_ lo hi b2 s.
Proof.
  intros H; unfold for_.
  assert (HH : forall i s, lo <= i < lo + Z.of_nat (Z.to_nat (hi - lo)) -> b1 i s = b2 i s)
    by (intros; apply H; lia).
  revert HH; generalize (Z.to_nat (hi - lo)) as n; clear H; intros n; revert lo s.
  induction n as [|n IH]; intros lo s HH; [reflexivity|].
  cbn [loop]. rewrite HH by lia. destruct (b2 lo s); cbn [bind]; [|reflexivity].
  apply IH; intros; apply HH; lia.
Qed.

Lemma loop_brk_inv {S X} (P : Z -> S -> Prop) (Q : X -> Prop) body n i s :
  P i s ->
  (forall j s, i <= j < i + Z.of_nat n -> P j s ->
     (exists s', body j s = Ok (inl s') /\ P (j + 1) s') \/ (exists x, body j s = Ok (inr x) /\ Q x)) ->
  (exists s', loop_brk n i body s = Ok (inl s') /\ P (i + Z.of_nat n) s') \/
  (exists x, loop_brk n i body s = Ok (inr x) /\ Q x).
Proof.
  revert i s; induction n as [|n IH]; intros i s H Hb.
  - left; exists s; split; [reflexivity|]. now rewrite Z.add_0_r.
  - cbn [loop_brk]. destruct (Hb i s) as [[s1 [E1 H1]]|[x [E1 H1]]]; [lia|exact H| |].
    + rewrite E1; cbn [bind].
      destruct (IH (i + 1) s1 H1) as [[s2 [E2 H2]]|[x [E2 H2]]];
        [intros; apply Hb; [lia|assumption]| |].
      * left; exists s2; split; [exact E2|].
        replace (i + Z.of_nat (Datatypes.S n)) with (i + 1 + Z.of_nat n) by lia. exact H2.
      * right; exists x; split; assumption.
    + rewrite E1; cbn [bind]. right; exists x; split; [reflexivity|exact H1].
Qed.
Lemma for_brk_inv {S X} (P : Z -> S -> Prop) (Q : X -> Prop) lo hi body s :
  lo <= hi -> P lo s ->
  (forall j s, lo <= j < hi -> P j s ->
     (exists s', body j s = Ok (inl s') /\ P (j + 1) s') \/ (exists x, body j s = Ok (inr x) /\ Q x)) ->
  (exists s', for_brk lo hi body s = Ok (inl s') /\ P hi s') \/
  (exists x, for_brk lo hi body s = Ok (inr x) /\ Q x).
Proof.
  intros Hle H Hb. unfold for_brk.
  destruct (loop_brk_inv P Q body (Z.to_nat (hi - lo)) lo s H) as [[s' [E Hs]]|E].
  - intros j s0 Hj; apply Hb; lia.
  - left; exists s'; split; [exact E|]. replace hi with (lo + Z.of_nat (Z.to_nat (hi - lo))) by lia. exact Hs.
  - right; exact E.
Qed.

Lemma bind_ok {A B} (m : res A) (f : A -> res B) b :
  bind m f = Ok b -> exists a, m = Ok a /\ f a = Ok b.
Proof. destruct m as [a|u]; cbn; [intros H; exists a; split; [reflexivity|exact H]|discriminate]. Qed.

(** ** reals *)
Open Scope R_scope.
Lemma Rltb_true x y : Rltb x y = true <-> x < y.
Proof. unfold Rltb; destruct (Rlt_dec x y); split; auto; discriminate. Qed.
Lemma Rltb_false x y : Rltb x y = false <-> y <= x.
Proof. unfold Rltb; destruct (Rlt_dec x y); split; intros; try lra; auto; discriminate. Qed.
Lemma Rleb_true x y : Rleb x y = true <-> x <= y.
Proof. unfold Rleb; destruct (Rle_dec x y); split; auto; discriminate. Qed.
Lemma Rleb_false x y : Rleb x y = false <-> y < x.
Proof. unfold Rleb; destruct (Rle_dec x y); split; intros; try lra; auto; discriminate. Qed.
Lemma Reqbool_true x y : Reqbool x y = true <-> x = y.
Proof. unfold Reqbool; destruct (Req_EM_T x y); split; auto; discriminate. Qed.
Lemma Rltb_spec x y : reflect (x < y) (Rltb x y).
Proof. unfold Rltb; destruct (Rlt_dec x y); constructor; auto. Qed.
Lemma Rleb_spec x y : reflect (x <= y) (Rleb x y).
Proof. unfold Rleb; destruct (Rle_dec x y); constructor; auto. Qed.

Lemma Rpow_pos x y : 0 < x -> Rpow x y = Rpower x y.
Proof. unfold Rpow; destruct (Rlt_dec 0 x); [reflexivity|lra]. Qed.
Lemma Int_part_IZR z : Int_part (IZR z) = z.
Proof. unfold Int_part. rewrite <- (tech_up (IZR z) (z + 1)); [lia| |]; rewrite plus_IZR; lra. Qed.
Lemma Rpow_nat x (n : nat) : Rpow x (IZR (Z.of_nat n)) = x ^ n.
Proof.
  unfold Rpow. destruct (Rlt_dec 0 x) as [H|H].
  - rewrite <- INR_IZR_INZ. apply Rpower_pow, H.
  - rewrite Int_part_IZR. destruct (Req_EM_T _ _) as [_|C]; [|congruence]. symmetry. apply pow_powerRZ.
Qed.

(** Reduce the operations of [RNum] to those of the standard library. *)
Ltac rn := cbn [T nadd nsub nmul ndiv nopp nabs nsqrt nlog nexp ncos nsin npow nlt nle neqb nZ nlit npi RNum].
Ltac rn_in H := cbn [T nadd nsub nmul ndiv nopp nabs nsqrt nlog nexp ncos nsin npow nlt nle neqb nZ nlit npi RNum] in H.
Ltac rn_all := cbn [T nadd nsub nmul ndiv nopp nabs nsqrt nlog nexp ncos nsin npow nlt nle neqb nZ nlit npi RNum] in *.

(** [for_with P] proves that the first loop of the goal runs and establishes [P]. *)
Ltac for_with P :=
  match goal with
  | |- context [for_ ?lo ?hi ?b ?s] =>
    let H := fresh "HF" in
    assert (H : exists s', for_ lo hi b s = Ok s' /\ P hi s'); [apply (for_inv P lo hi b s)|]
  end.

Lemma Forall2_imp {A B} (P Q : A -> B -> Prop) l l' :
  (forall a b, P a b -> Q a b) -> Forall2 P l l' -> Forall2 Q l l'.
Proof. intros H F; induction F; constructor; auto. Qed.
