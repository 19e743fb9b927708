(** ProofContainer2: every spectrum of the chosen rows is the chosen rows of the spectrum. *)
From Coq Require Import Lia List ZArith String Bool.
From Verif Require Import Base Num BaseFacts Common Registry PyTerms ProofPy PyContainer SpecContainer ProofContainer.
Import ListNotations.
Local Open Scope Z_scope.

Lemma chosen_unique {A} (m : Z) (v : list A) ps w w' : 1 <= m -> chosen m v ps w -> chosen m v ps w' -> w = w'.
Proof.
  intros Hm [L H] [L' H']. assert (EL : List.length w = List.length w') by (unfold zlen in *; lia).
  assert (E : forall i, nth_error w i = nth_error w' i).
  { intros i. destruct (lt_dec i (List.length w)) as [Hi|Hi].
    - pose proof (Z.div_mod (Z.of_nat i) m ltac:(lia)). pose proof (Z.mod_pos_bound (Z.of_nat i) m ltac:(lia)).
      assert (B : 0 <= Z.of_nat i / m < zlen ps) by (unfold zlen in *; split; [apply Z.div_pos; lia|apply Z.div_lt_upper_bound; nia]).
      destruct (H (Z.of_nat i / m) (Z.of_nat i mod m) B ltac:(lia)) as [E _]. destruct (H' (Z.of_nat i / m) (Z.of_nat i mod m) B ltac:(lia)) as [E' _].
      replace (Z.to_nat (Z.of_nat i / m * m + Z.of_nat i mod m)) with i in * by lia. congruence.
    - rewrite (proj2 (nth_error_None w i)) by lia. rewrite (proj2 (nth_error_None w' i)) by lia. reflexivity. }
  clear -E. revert w' E. induction w as [|a w IH]; intros [|b w'] E; [reflexivity|discriminate (E O)|discriminate (E O)|].
  f_equal; [injection (E O); auto|]. apply IH. intros i. apply (E (S i)).
Qed.
Lemma elementwise_lengths {N} (f : list (T N) -> T N) v vs out : elementwise f (v :: vs) = Ok out ->
  List.length out = List.length v /\ forall u, In u vs -> List.length u = List.length v.
Proof.
  unfold elementwise. match goal with |- (if ?b then _ else _) = _ -> _ => destruct b eqn:HB end; [|discriminate]. intros E. injection E as <-. split; [rewrite map_length, seq_length; reflexivity|].
  intros u Hu. rewrite forallb_forall in HB. specialize (HB u (or_intror Hu)). apply Nat.eqb_eq in HB. exact HB.
Qed.

Section Readings.
Context {N : Num} (cl : pyclass) (ix : index) (n : Z) (ps : list Z) (c d : list (string * list (T N))).
Hypothesis Hn : 0 <= n.
Hypothesis HR : rows_are n cl c.
Hypothesis HP : positions n ix = Ok ps.
Hypothesis Sel : select cl c ix = Ok d.
Notation picked m v w := (pick (N := N) m v ix = Ok w).
Lemma chosen_picked m (v w : list (T N)) : 1 <= m -> zlen v = n * m -> chosen m v ps w -> picked m v w.
Proof. intros Hm L H. destruct (pick_chosen m n v ix ps Hm Hn L HP) as [w' [E H']]. rewrite E. f_equal. apply (chosen_unique m v ps); assumption. Qed.
Lemma picked_chosen m (v w : list (T N)) : 1 <= m -> zlen v = n * m -> picked m v w -> chosen m v ps w.
Proof. intros Hm L H. destruct (pick_chosen m n v ix ps Hm Hn L HP) as [w' [E H']]. rewrite H in E. injection E as <-. exact H'. Qed.
Lemma item_length x (v : list (T N)) : getitem c x = Ok v -> zlen v = n * width cl x.
Proof. intros E. apply getitem_assoc in E. apply HR. apply assoc_member. exact E. Qed.
Lemma width_k : width cl "k" = 1.
Proof. destruct cl; reflexivity. Qed.

Definition variance_is (s s' : option (@column N)) : Prop :=
  match s, s' with None, None => True | Some s, Some s' => chosen 1 s ps s' | _, _ => False end.
Lemma variance_picked (s s' : option (@column N)) (v : list (T N)) : width cl "sigmad2" = 1 -> variance_is s s' ->
  match s with None => getitem c "sigmad2" | Some s => Ok s end = Ok v -> zlen v = n ->
  exists w, match s' with None => getitem d "sigmad2" | Some s => Ok s end = Ok w /\ picked 1 v w.
Proof.
  intros HW HS E L. destruct s as [s|], s' as [s'|]; try contradiction.
  - injection E as <-. exists s'. split; [reflexivity|]. apply chosen_picked; [lia|lia|exact HS].
  - destruct (picked_item cl ix c d Sel _ _ E) as [w [E1 E2]]. rewrite HW in E2. exists w. auto.
Qed.
Lemma damped_picked npk x D s s' (v : list (T N)) : width cl "sigmad2" = 1 -> width cl x = 1 -> variance_is s s' ->
  damping_factor npk c D s (getitem c x) = Ok v -> exists w, damping_factor npk d D s' (getitem d x) = Ok w /\ picked 1 v w /\ zlen v = n.
Proof.
  intros HW1 HW2 HS E. unfold damping_factor in *.
  match type of E with bind ?r _ = _ => destruct r as [k|] eqn:E1; [|discriminate E] end. cbn [bind] in E.
  match type of E with bind ?r _ = _ => destruct r as [g|] eqn:E2; [|discriminate E] end. cbn [bind] in E.
  match type of E with bind ?r _ = _ => destruct r as [e|] eqn:E3; [|discriminate E] end. cbn [bind] in E.
  destruct (elementwise_lengths _ _ _ _ E) as [L1 L2]. pose proof (item_length _ _ E1) as Lk. rewrite width_k in Lk.
  destruct (picked_item cl ix c d Sel _ _ E1) as [k' [F1 G1]]. rewrite width_k in G1.
  destruct (variance_picked s s' g HW1 HS E2) as [g' [F2 G2]]; [specialize (L2 g (or_introl eq_refl)); unfold zlen in *; lia|].
  destruct (picked_item cl ix c d Sel _ _ E3) as [e' [F3 G3]]. rewrite HW2 in G3.
  rewrite F1. cbn [bind]. rewrite F2. cbn [bind]. rewrite F3. cbn [bind].
  destruct (pick_elementwise _ [k; g; e] [k'; g'; e'] v ix ltac:(discriminate) ltac:(repeat constructor; assumption) E) as [o [A B]].
  exists o. split; [exact A|]. split; [exact B|]. unfold zlen in *; lia.
Qed.
Lemma rows_picked f l s s' (v : list (T N)) : (forall x, In x l -> width cl x = 1) -> width cl "sigmad2" = 1 -> variance_is s s' ->
  (s0 <- match s with None => getitem c "sigmad2" | Some s => Ok s end ;; k <- getitem c "k" ;; cs <- getitems c l ;; elementwise f (k :: s0 :: cs)) = Ok v ->
  exists w, (s0 <- match s' with None => getitem d "sigmad2" | Some s => Ok s end ;; k <- getitem d "k" ;; cs <- getitems d l ;; elementwise f (k :: s0 :: cs)) = Ok w /\ picked 1 v w /\ zlen v = n.
Proof.
  intros HW HW1 HS E.
  match type of E with bind ?r _ = _ => destruct r as [g|] eqn:E2; [|discriminate E] end. cbn [bind] in E.
  match type of E with bind ?r _ = _ => destruct r as [k|] eqn:E1; [|discriminate E] end. cbn [bind] in E.
  match type of E with bind ?r _ = _ => destruct r as [vs|] eqn:E3; [|discriminate E] end. cbn [bind] in E.
  destruct (elementwise_lengths _ _ _ _ E) as [L1 L2]. pose proof (item_length _ _ E1) as Lk. rewrite width_k in Lk.
  destruct (picked_item cl ix c d Sel _ _ E1) as [k' [F1 G1]]. rewrite width_k in G1.
  destruct (variance_picked s s' g HW1 HS E2) as [g' [F2 G2]]; [specialize (L2 g (or_introl eq_refl)); unfold zlen in *; lia|].
  destruct (picked_items cl ix c d Sel l HW vs E3) as [ws [F3 G3]].
  rewrite F2. cbn [bind]. rewrite F1. cbn [bind]. rewrite F3. cbn [bind].
  destruct (pick_elementwise f (k :: g :: vs) (k' :: g' :: ws) v ix ltac:(discriminate) ltac:(constructor; [assumption|constructor; assumption]) E) as [o [A B]].
  exists o. split; [exact A|]. split; [exact B|]. unfold zlen in *; lia.
Qed.
Lemma read_off_picked f D s s' kmin kmax v : offers cl f -> variance_is s s' -> read_off cl f c D s kmin kmax = Ok v ->
  exists w, read_off cl f d D s' kmin kmax = Ok w /\ chosen (numbers cl f) v ps w.
Proof.
  intros HO HS E. cut (exists w, read_off cl f d D s' kmin kmax = Ok w /\ picked (numbers cl f) v w /\ zlen v = n * numbers cl f).
  { intros [w [H1 [H2 H3]]]. exists w. split; [exact H1|]. apply picked_chosen; try assumption. destruct f; cbn; try lia. apply width_pos. }
  destruct f; cbn [read_off offers numbers] in *.
  - (* Scaled *)
    unfold accessor in *. destruct (assoc (accessors cl) x) as [[npk y]|] eqn:EA; [|discriminate].
    assert (y = x) as ->.
    { revert EA. clear. destruct cl; cbn -[String.eqb]; repeat (match goal with |- context [if (x =? ?k)%string then _ else _] => destruct (String.eqb_spec x k) as [->|] end); congruence. }
    unfold scale_factor in *. match type of E with bind ?r _ = _ => destruct r as [u|] eqn:E1; [|discriminate E] end. cbn [bind] in E. injection E as <-.
    destruct (picked_item cl ix c d Sel _ _ E1) as [w [F1 G1]]. rewrite F1. cbn [bind]. eexists. split; [reflexivity|].
    split; [apply pick_map; exact G1|]. pose proof (item_length _ _ E1). unfold zlen in *. rewrite map_length. assumption.
  - (* Sigma3sq *)
    unfold pk_sigma3sq, scale_factor in *. match type of E with bind (bind ?r _) _ = _ => destruct r as [vs|] eqn:E1; [|discriminate E] end. cbn [bind] in E.
    match type of E with bind ?r _ = _ => destruct r as [u|] eqn:E2; [|discriminate E] end. cbn [bind] in E. injection E as <-.
    destruct (picked_items cl ix c d Sel ["pk_lin"; "sigma3sq"]%string ltac:(intros x _; rewrite HO; reflexivity) vs E1) as [ws [F1 G1]]. rewrite F1. cbn [bind].
    assert (vs <> []) by (inversion G1; subst; [cbn [getitems] in E1; destruct (getitem c _); [|discriminate]; cbn [bind] in E1; destruct (getitem c _); discriminate|discriminate]).
    destruct (pick_elementwise _ vs ws u ix H G1 E2) as [o [A B]]. rewrite A. cbn [bind]. eexists. split; [reflexivity|].
    split; [apply pick_map; exact B|]. unfold zlen. rewrite map_length.
    destruct vs as [|p vs]; [congruence|]. destruct (elementwise_lengths _ _ _ _ E2) as [L _]. rewrite L.
    cbn [getitems] in E1. destruct (getitem c "pk_lin") as [q|] eqn:E3; [|discriminate]. cbn [bind] in E1. destruct (getitem c "sigma3sq"); [|discriminate].
    cbn [bind] in E1. injection E1 as -> _. pose proof (item_length _ _ E3) as Lq. rewrite HO in Lq. exact Lq.
  - (* Damped *)
    unfold pk_damped in *. destruct (damped_picked 2 x D s s' v ltac:(rewrite HO; reflexivity) ltac:(rewrite HO; reflexivity) HS E) as [w [A [B C]]]. exists w. split; [exact A|]. split; [exact B|lia].
  - unfold pk_1loop in *. edestruct (rows_picked (pk_1loop_row D)) as [w [A [B C]]]; [| |exact HS|exact E|exists w; split; [exact A|]; split; [exact B|lia]].
    + intros; rewrite HO; reflexivity.
    + rewrite HO; reflexivity.
  - unfold pk_2loop in *. edestruct (rows_picked (pk_2loop_row D)) as [w [A [B C]]]; [| |exact HS|exact E|exists w; split; [exact A|]; split; [exact B|lia]].
    + intros; rewrite HO; reflexivity.
    + rewrite HO; reflexivity.
  - unfold shotnoise in *. match type of E with bind ?r _ = _ => destruct r as [k|] eqn:E1; [|discriminate E] end. cbn [bind] in E. injection E as <-.
    destruct (picked_item _ ix c d Sel _ _ E1) as [w [F1 G1]]. rewrite F1. cbn [bind]. eexists. split; [reflexivity|].
    rewrite width_k in G1. split; [apply pick_map; exact G1|]. pose proof (item_length _ _ E1) as L. rewrite width_k in L. unfold zlen in *. rewrite map_length. exact L.
Qed.
End Readings.
