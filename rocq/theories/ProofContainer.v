(** ProofContainer: rows chosen from an object. *)
From Coq Require Import Lia List ZArith String Bool.
From Verif Require Import Base Num BaseFacts Common Registry PyTerms ProofPy PyContainer SpecContainer.
Import ListNotations.
Local Open Scope Z_scope.

(** ** Positions *)
Lemma range_in start stop step p : step <> 0 -> In p (range start stop step) ->
  (0 < step -> start <= p < stop) /\ (step < 0 -> stop < p <= start).
Proof.
  intros Hs H. unfold range in H. apply in_map_iff in H as [i [<- Hi]]. apply in_seq in Hi.
  destruct (Z.ltb_spec 0 step).
  - split; [intros _|lia]. pose proof (Z.div_mod (stop - start + step - 1) step ltac:(lia)).
    pose proof (Z.mod_pos_bound (stop - start + step - 1) step ltac:(lia)). nia.
  - split; [lia|intros _]. pose proof (Z.div_mod (start - stop - step - 1) (- step) ltac:(lia)).
    pose proof (Z.mod_pos_bound (start - stop - step - 1) (- step) ltac:(lia)). nia.
Qed.
Lemma positions_range n ix ps : 0 <= n -> positions n ix = Ok ps -> forall p, In p ps -> 0 <= p < n.
Proof.
  intros Hn E p Hp. destruct ix as [a b s|l|l]; cbn [positions] in E.
  - destruct (Z.eqb_spec s 0) as [|Hs]; [discriminate|]. injection E as <-. apply range_in in Hp as [H1 H2]; [|exact Hs].
    unfold bound in *. destruct (Z.ltb_spec s 0).
    + destruct (H2 ltac:(lia)). destruct a as [a|], b as [b|];
        repeat match goal with H : context [if ?x <? 0 then _ else _] |- _ => destruct (Z.ltb_spec x 0) end; lia.
    + destruct (H1 ltac:(lia)). destruct a as [a|], b as [b|];
        repeat match goal with H : context [if ?x <? 0 then _ else _] |- _ => destruct (Z.ltb_spec x 0) end; lia.
  - destruct (Z.eqb_spec (zlen l) n) as [En|]; [|discriminate]. injection E as <-.
    apply in_map_iff in Hp as [[i b] [<- Hi]]. apply filter_In in Hi as [Hi _]. apply in_combine_l in Hi. apply in_seq in Hi. cbn. unfold zlen in En. lia.
  - destruct (forallb _ l) eqn:F; [|discriminate]. injection E as <-. apply in_map_iff in Hp as [i [<- Hi]].
    rewrite forallb_forall in F. specialize (F i Hi). apply andb_prop in F as [A B]. apply Z.leb_le in A. apply Z.ltb_lt in B.
    destruct (Z.ltb_spec i 0); lia.
Qed.

(** ** Rows *)
Section Rows.
Context {A : Type} (m n : Z) (v : list A) (Hm : 1 <= m) (Hn : 0 <= n) (L : zlen v = n * m).
Local Notation row p := (firstn (Z.to_nat m) (skipn (Z.to_nat (p * m)) v)).
Lemma row_length p : 0 <= p < n -> List.length (row p) = Z.to_nat m.
Proof. intros Hp. rewrite firstn_length, skipn_length. unfold zlen in L. nia. Qed.
Lemma nth_error_skip (a b : nat) (l : list A) : nth_error (skipn a l) b = nth_error l (a + b).
Proof. revert l; induction a; intros l; [reflexivity|]. destruct l; cbn [skipn Nat.add]; [destruct b; reflexivity|apply IHa]. Qed.
Lemma nth_error_first (a b : nat) (l : list A) : (b < a)%nat -> nth_error (firstn a l) b = nth_error l b.
Proof. revert b l; induction a; intros b l H; [lia|]. destruct l; cbn [firstn]; [reflexivity|]. destruct b; [reflexivity|]. cbn. apply IHa. lia. Qed.
Lemma row_at p r : 0 <= p < n -> 0 <= r < m -> nth_error (row p) (Z.to_nat r) = nth_error v (Z.to_nat (p * m + r)).
Proof. intros Hp Hr. rewrite nth_error_first by lia. rewrite nth_error_skip. f_equal. rewrite Z2Nat.inj_add by nia. reflexivity. Qed.
Lemma flat_rows ps : (forall p, In p ps -> 0 <= p < n) -> chosen m v ps (flat_map (fun p => row p) ps).
Proof.
  induction ps as [|p ps IH]; intros H.
  - split; [reflexivity|]. intros j r Hj. unfold zlen in Hj. cbn in Hj. lia.
  - destruct IH as [IL IH]; [intros; apply H; right; assumption|].
    pose proof (H p (or_introl eq_refl)) as Hp. pose proof (row_length p Hp) as LR. cbn [flat_map]. split.
    + rewrite zlen_cons. unfold zlen in *. rewrite app_length, LR. nia.
    + intros j r Hj Hr. rewrite zlen_cons in Hj. destruct (Z.eq_dec j 0) as [->|Hj0].
      * cbn [Z.mul Z.add Z.to_nat nth]. rewrite nth_error_app1 by lia. rewrite row_at by assumption. split; [reflexivity|].
        apply nth_error_Some. unfold zlen in L. nia.
      * rewrite nth_error_app2 by nia. rewrite LR.
        replace (Z.to_nat (j * m + r) - Z.to_nat m)%nat with (Z.to_nat ((j - 1) * m + r)) by nia.
        destruct (IH (j - 1) r ltac:(lia) Hr) as [E1 E2]. split; [|exact E2]. rewrite E1.
        replace (Z.to_nat j) with (S (Z.to_nat (j - 1))) by lia. reflexivity.
Qed.
End Rows.
Lemma width_pos cl x : 1 <= width cl x.
Proof. unfold width, ncomp. destruct cl; try destruct (_ =? _)%string; lia. Qed.

Section Select.
Context {N : Num}.
Implicit Types (c d : list (string * list (T N))) (v w : list (T N)).
Lemma select_keys cl ix c : forall d, select cl c ix = Ok d -> map fst d = map fst c.
Proof.
  induction c as [|[x v] t IH]; intros d E; cbn [select] in E; [injection E as <-; reflexivity|].
  destruct (pick _ v ix); [|discriminate]. destruct (select cl t ix) as [t'|]; [|discriminate]. injection E as <-. cbn. f_equal. apply IH. reflexivity.
Qed.
Lemma select_assoc cl ix c x : forall d, select cl c ix = Ok d ->
  match assoc c x with Some v => exists w, assoc d x = Some w /\ pick (width cl x) v ix = Ok w | None => assoc d x = None end.
Proof.
  induction c as [|[y v] t IH]; intros d E; cbn [select] in E; [injection E as <-; reflexivity|].
  destruct (pick _ v ix) as [w|] eqn:EP; [|discriminate]. destruct (select cl t ix) as [t'|]; [|discriminate]. injection E as <-.
  cbn [assoc]. destruct (String.eqb_spec x y) as [->|]; [exists w; auto|]. apply IH. reflexivity.
Qed.
Lemma pick_chosen m n v ix ps : 1 <= m -> 0 <= n -> zlen v = n * m -> positions n ix = Ok ps ->
  exists w, pick m v ix = Ok w /\ chosen m v ps w.
Proof.
  intros Hm Hn L E. unfold pick. rewrite L, Z.div_mul by lia. rewrite E. cbn [bind]. eexists; split; [reflexivity|].
  apply (flat_rows m n v Hm Hn L). apply (positions_range n ix ps Hn E).
Qed.
Lemma assoc_member {A} (l : list (string * A)) x a : assoc l x = Some a -> In (x, a) l.
Proof.
  induction l as [|[y b] t IH]; cbn [assoc]; [discriminate|]. destruct (String.eqb_spec x y) as [->|]; [intros E; injection E as ->; left; reflexivity|].
  intros E. right. apply IH, E.
Qed.
Lemma select_ok cl ix n c ps : 0 <= n -> rows_are n cl c -> positions n ix = Ok ps ->
  exists d, select cl c ix = Ok d /\ map fst d = map fst c /\
    forall x v, assoc c x = Some v -> exists w, assoc d x = Some w /\ chosen (width cl x) v ps w.
Proof.
  intros Hn HR E. assert (exists d, select cl c ix = Ok d) as [d Ed].
  { induction c as [|[x v] t IH]; [eexists; reflexivity|]. cbn [select].
    destruct (pick_chosen (width cl x) n v ix ps (width_pos cl x) Hn (HR x v (or_introl eq_refl)) E) as [w [-> _]].
    destruct IH as [d ->]; [intros y u H; apply HR; right; exact H|]. eexists; reflexivity. }
  exists d. split; [exact Ed|]. split; [apply (select_keys _ _ _ _ Ed)|].
  intros x v Hx. pose proof (select_assoc cl ix c x d Ed) as H. rewrite Hx in H. destruct H as [w [H1 H2]]. exists w. split; [exact H1|].
  destruct (pick_chosen (width cl x) n v ix ps (width_pos cl x) Hn (HR x v (assoc_member _ _ _ Hx)) E) as [w' [E1 E2]].
  rewrite H2 in E1. injection E1 as <-. exact E2.
Qed.
Lemma select_err cl ix n c e : 0 <= n -> c <> [] -> rows_are n cl c -> positions n ix = Err e -> select cl c ix = Err e.
Proof.
  intros Hn Hc HR E. destruct c as [|[x v] t]; [congruence|]. cbn [select]. unfold pick.
  rewrite (HR x v (or_introl eq_refl)). rewrite Z.div_mul by (pose proof (width_pos cl x); lia). rewrite E. reflexivity.
Qed.

(** ** Functions of the columns *)
Lemma pick_map (f : T N -> T N) m v w ix : pick (N := N) m v ix = Ok w -> pick (N := N) m (map f v) ix = Ok (map f w).
Proof.
  unfold pick. unfold zlen. rewrite map_length. destruct (positions _ ix) as [ps|]; cbn [bind]; [|discriminate]. intros E. injection E as <-.
  f_equal. induction ps as [|p ps IH]; [reflexivity|]. cbn [flat_map]. rewrite map_app. rewrite IH. f_equal. rewrite skipn_map, firstn_map. reflexivity.
Qed.
Lemma pick_one v n ix ps : zlen v = n -> positions n ix = Ok ps -> pick 1 v ix = Ok (map (fun p => nth (Z.to_nat p) v (nZ N 0)) ps).
Proof.
  intros L E. unfold pick. rewrite Z.div_1_r, L, E. cbn [bind]. f_equal.
  assert (H : forall p, In p ps -> 0 <= p < n) by (apply (positions_range n ix ps); [pose proof (zlen_nonneg v); lia|exact E]).
  clear E. induction ps as [|p ps IH]; [reflexivity|]. cbn [flat_map map]. rewrite IH by (intros; apply H; right; assumption).
  pose proof (H p (or_introl eq_refl)) as Hp. rewrite Z.mul_1_r. change (Z.to_nat 1) with 1%nat.
  assert (Hq : (Z.to_nat p < List.length v)%nat) by (unfold zlen in L; lia). match goal with |- _ = _ :: ?t => generalize t end. revert Hq. generalize (Z.to_nat p). clear. induction v as [|a v IHv]; intros q Hq t; [cbn in Hq; lia|].
  destruct q; [reflexivity|]. cbn [skipn nth]. apply IHv. cbn in Hq. lia.
Qed.
Lemma pick_positions m v w ix : pick m v ix = Ok w -> exists ps, positions (zlen v / m) ix = Ok ps.
Proof. unfold pick. destruct (positions _ ix); [eexists; reflexivity|discriminate]. Qed.
Lemma map_seq_nth {A B} (g : A -> B) (l : list A) (d : A) : map (fun i => g (nth i l d)) (seq 0 (List.length l)) = map g l.
Proof.
  induction l as [|a l IH]; [reflexivity|]. cbn [List.length seq map nth]. f_equal. rewrite <- seq_shift, map_map. exact IH.
Qed.
Lemma pick_elementwise (f : list (T N) -> T N) vs ws out ix : vs <> [] -> Forall2 (fun v w => pick 1 v ix = Ok w) vs ws ->
  elementwise f vs = Ok out -> exists o, elementwise f ws = Ok o /\ pick 1 out ix = Ok o.
Proof.
  intros Hne HF E. destruct vs as [|v0 vs0]; [congruence|]. unfold elementwise in E.
  destruct (forallb _ (v0 :: vs0)) eqn:HB; [|discriminate]. injection E as <-.
  set (n := zlen v0).
  assert (HL : forall v, In v (v0 :: vs0) -> zlen v = n).
  { intros v Hv. rewrite forallb_forall in HB. specialize (HB v Hv). apply Nat.eqb_eq in HB. unfold n, zlen. lia. }
  assert (exists ps, positions n ix = Ok ps) as [ps EP].
  { inversion HF as [|? w0 ? ? H0 _]; subst. apply pick_positions in H0. rewrite Z.div_1_r in H0. exact H0. }
  assert (HW : ws = map (fun v => map (fun p => nth (Z.to_nat p) v (nZ N 0)) ps) (v0 :: vs0)).
  { clear HB. revert HF HL. generalize (v0 :: vs0). intros l HF HL. induction HF as [|v w l l' H HF IH]; [reflexivity|].
    cbn [map]. f_equal; [|apply IH; intros; apply HL; right; assumption].
    rewrite (pick_one v n ix ps (HL v (or_introl eq_refl)) EP) in H. injection H as <-. reflexivity. }
  eexists. split.
  - subst ws. unfold elementwise. cbn [map].
    match goal with |- (if ?b then _ else _) = _ => replace b with true end; [reflexivity|].
    symmetry. apply forallb_forall. intros d Hd. apply Nat.eqb_eq.
    change (_ :: map _ vs0) with (map (fun v => map (fun p => nth (Z.to_nat p) v (nZ N 0)) ps) (v0 :: vs0)) in Hd.
    apply in_map_iff in Hd as [v [<- _]]. rewrite !map_length. reflexivity.
  - rewrite (pick_one _ n ix ps); [|unfold zlen; rewrite map_length, seq_length; reflexivity|exact EP]. f_equal.
    rewrite map_length. subst ws. rewrite <- (map_seq_nth _ ps 0). apply map_ext_in. intros i Hi. apply in_seq in Hi.
    assert (Hp : 0 <= nth i ps 0 < n) by (apply (positions_range n ix ps); [unfold n; apply zlen_nonneg|exact EP|apply nth_In; lia]).
    assert (Hp' : (Z.to_nat (nth i ps 0%Z) < List.length v0)%nat) by (unfold n, zlen in Hp; lia).
    set (g := fun i => f (map (fun u : list (T N) => nth i u (nZ N 0)) (v0 :: vs0))).
    rewrite (nth_indep _ (nZ N 0) (g 0%nat)) by (rewrite map_length, seq_length; exact Hp').
    rewrite (map_nth g), seq_nth by exact Hp'. unfold g. f_equal. rewrite map_map.
    match goal with |- ?a = _ :: map ?h vs0 => change (a = map h (v0 :: vs0)) end. apply map_ext. intros v.
    set (h := fun p => nth (Z.to_nat p) v (nZ N 0)). rewrite (nth_indep (map h ps) (nZ N 0) (h 0)) by (rewrite map_length; lia).
    rewrite (map_nth h). reflexivity.
Qed.

Context (cl : pyclass) (ix : index) (c d : list (string * list (T N))) (Sel : select cl c ix = Ok d).
Lemma picked_item x v : getitem c x = Ok v -> exists w, getitem d x = Ok w /\ pick (width cl x) v ix = Ok w.
Proof.
  intros E. pose proof (select_assoc cl ix c x d Sel) as H. apply getitem_assoc in E. unfold column in E. rewrite E in H.
  destruct H as [w [H1 H2]]. exists w. split; [apply getitem_assoc; exact H1|exact H2].
Qed.
Lemma picked_items l : (forall x, In x l -> width cl x = 1) -> forall vs, getitems c l = Ok vs ->
  exists ws, getitems d l = Ok ws /\ Forall2 (fun v w => pick 1 v ix = Ok w) vs ws.
Proof.
  induction l as [|x l IH]; intros HW vs E; cbn [getitems] in E; [injection E as <-; exists []; split; [reflexivity|constructor]|].
  destruct (getitem c x) as [v|] eqn:E1; [|discriminate]. cbn [bind] in E. destruct (getitems c l) as [vl|] eqn:E2; [|discriminate]. injection E as <-.
  destruct (picked_item x v E1) as [w [F1 F2]]. rewrite (HW x (or_introl eq_refl)) in F2.
  destruct (IH ltac:(intros; apply HW; right; assumption) vl eq_refl) as [ws [G1 G2]].
  exists (w :: ws). cbn [getitems]. rewrite F1, G1. cbn [bind]. split; [reflexivity|]. constructor; assumption.
Qed.
End Select.
