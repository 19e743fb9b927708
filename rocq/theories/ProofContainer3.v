(** ProofContainer3: in-place changes of chosen rows, slices, and the columns as a dict. *)
From Coq Require Import Lia List ZArith String Bool.
From Verif Require Import Base Num BaseFacts Common Registry PyTerms ProofPy PyContainer SpecContainer ProofContainer.
Import ListNotations.
Local Open Scope Z_scope.

(** ** Slices and masks *)
Lemma slice_between n a b : 0 <= a <= b -> b <= n -> positions n (Rows (Some a) (Some b) 1) = Ok (map (fun i => a + Z.of_nat i) (seq 0 (Z.to_nat (b - a)))).
Proof.
  intros Ha Hb. cbn [positions Z.eqb]. unfold bound, range. cbn [Z.ltb Z.compare].
  destruct (Z.ltb_spec a 0); [lia|]. destruct (Z.ltb_spec b 0); [lia|]. rewrite !Z.min_l by lia. rewrite Z.div_1_r.
  replace (b - a + 1 - 1) with (b - a) by lia. f_equal. apply map_ext. intros i. lia.
Qed.
Lemma slice_last n a : 0 < a <= n -> positions n (Rows (Some (- a)) None 1) = Ok (map (fun i => n - a + Z.of_nat i) (seq 0 (Z.to_nat a))).
Proof.
  intros Ha. cbn [positions Z.eqb]. unfold bound, range. cbn [Z.ltb Z.compare].
  destruct (Z.ltb_spec (- a) 0); [|lia]. rewrite Z.max_l by lia. rewrite Z.div_1_r.
  replace (n - (- a + n) + 1 - 1) with a by lia. f_equal. apply map_ext. intros i. lia.
Qed.
Lemma slice_reversed n : 0 <= n -> positions n (Rows None None (-1)) = Ok (map (fun i => n - 1 - Z.of_nat i) (seq 0 (Z.to_nat n))).
Proof.
  intros Hn. cbn [positions Z.eqb]. unfold bound, range. cbn [Z.ltb Z.compare Z.opp]. rewrite Z.div_1_r.
  replace (n - 1 - -1 - -1 - 1) with n by lia. f_equal. apply map_ext. intros i. lia.
Qed.
Lemma slice_step n s : 0 <= n -> 0 < s -> positions n (Rows None None s) = Ok (map (fun i => Z.of_nat i * s) (seq 0 (Z.to_nat ((n + s - 1) / s)))).
Proof.
  intros Hn Hs. cbn [positions]. destruct (Z.eqb_spec s 0); [lia|]. unfold bound, range. destruct (Z.ltb_spec s 0); [lia|]. destruct (Z.ltb_spec 0 s); [|lia].
  f_equal. replace (n - 0 + s - 1) with (n + s - 1) by lia. apply map_ext. intros i. lia.
Qed.
Lemma mask_positions n l ps : positions n (Mask l) = Ok ps -> forall p, In p ps <-> 0 <= p < n /\ nth (Z.to_nat p) l false = true.
Proof.
  cbn [positions]. destruct (Z.eqb_spec (zlen l) n) as [En|]; [|discriminate]. intros E p. injection E as <-.
  assert (H : forall a i b, In (i, b) (combine (seq a (List.length l)) l) <-> (a <= i < a + List.length l)%nat /\ nth (i - a) l (negb b) = b).
  { clear. induction l as [|x l IH]; intros a i b; cbn [List.length seq combine In]; [split; [intros []|lia]|]. rewrite IH. split.
    - intros [E|[H1 H2]]; [injection E as -> ->; rewrite Nat.sub_diag; cbn; split; [lia|reflexivity]|]. split; [lia|].
      replace (i - a)%nat with (S (i - S a)) by lia. exact H2.
    - intros [H1 H2]. destruct (Nat.eq_dec i a) as [->|]; [left; rewrite Nat.sub_diag in H2; cbn in H2; congruence|right]. split; [lia|].
      replace (i - a)%nat with (S (i - S a)) in H2 by lia. exact H2. }
  rewrite in_map_iff. split.
  - intros [[i b] [<- Hi]]. apply filter_In in Hi as [Hi Hb]. cbn in Hb. subst b. apply H in Hi as [H1 H2]. cbn [fst].
    rewrite Nat2Z.id. unfold zlen in *. rewrite Nat.sub_0_r in H2. cbn in H2. split; [lia|exact H2].
  - intros [H1 H2]. exists (Z.to_nat p, true). cbn [fst]. split; [lia|]. apply filter_In. split; [|reflexivity]. apply H. rewrite Nat.sub_0_r.
    unfold zlen in *. split; [lia|exact H2].
Qed.

(** ** rescale and nan_to_zero of the chosen rows *)
Section InPlace.
Context {N : Num}.
Implicit Types (c d : list (string * list (T N))) (v w : list (T N)).
Lemma rescale_select cl ix D c : forall d c' o, select cl c ix = Ok d -> rescale cl c D = (c', o) ->
  exists d', rescale cl d D = (d', o) /\ select cl c' ix = Ok d'.
Proof.
  induction c as [|[x v] t IH]; intros d c' o Hs Hr; cbn [select] in Hs.
  - injection Hs as <-. injection Hr as <- <-. exists []. split; reflexivity.
  - destruct (pick (width cl x) v ix) as [w|] eqn:EP; [|discriminate]. cbn [bind] in Hs. destruct (select cl t ix) as [t'|] eqn:ET; [|discriminate]. injection Hs as <-.
    cbn [rescale] in Hr |- *. destruct (assoc (scales cl) x) as [s|].
    + destruct (rescale cl t D) as [t1 o1] eqn:ER. injection Hr as <- <-. destruct (IH t' t1 o1 eq_refl eq_refl) as [d' [E1 E2]].
      rewrite E1. eexists. split; [reflexivity|]. cbn [select]. rewrite (pick_map _ _ _ _ _ EP). cbn [bind]. rewrite E2. reflexivity.
    + injection Hr as <- <-. eexists. split; [reflexivity|]. cbn [select]. rewrite EP. cbn [bind]. rewrite ET. reflexivity.
Qed.
Lemma select_setitem cl ix x v w c : forall d, select cl c ix = Ok d -> pick (width cl x) v ix = Ok w -> select cl (setitem c x v) ix = Ok (setitem d x w).
Proof.
  induction c as [|[y u] t IH]; intros d Hs HP; cbn [select] in Hs.
  - injection Hs as <-. cbn [setitem select]. rewrite HP. reflexivity.
  - destruct (pick (width cl y) u ix) as [u'|] eqn:EP; [|discriminate]. cbn [bind] in Hs. destruct (select cl t ix) as [t'|] eqn:ET; [|discriminate]. injection Hs as <-.
    cbn [setitem]. destruct (String.eqb_spec y x) as [->|]; cbn [select].
    + rewrite HP. cbn [bind]. rewrite ET. reflexivity.
    + rewrite EP. cbn [bind]. rewrite (IH t' eq_refl HP). reflexivity.
Qed.
Lemma nan_select cl ix c d c' o : select cl c ix = Ok d -> nan_to_zero cl c = (c', o) ->
  exists d', nan_to_zero cl d = (d', o) /\ select cl c' ix = Ok d'.
Proof.
  unfold nan_to_zero, each_field. generalize (fields cl) as l. intros l. revert c d.
  assert (G : forall l c d r, select cl c ix = Ok d ->
    exists d', fold_left (fun o key => match o with (c, Done) => match getitem c key with Ok v => (setitem c key (nan_to_zero_column v), Done) | Err _ => (c, Raised KeyError) end | _ => o end) l (d, r) = (d', snd (fold_left (fun o key => match o with (c, Done) => match getitem c key with Ok v => (setitem c key (nan_to_zero_column v), Done) | Err _ => (c, Raised KeyError) end | _ => o end) l (c, r)))
      /\ select cl (fst (fold_left (fun o key => match o with (c, Done) => match getitem c key with Ok v => (setitem c key (nan_to_zero_column v), Done) | Err _ => (c, Raised KeyError) end | _ => o end) l (c, r))) ix = Ok d').
  { clear l. induction l as [|x l IH]; intros c d r Hs; cbn [fold_left]; [exists d; split; [reflexivity|exact Hs]|].
    destruct r; [|apply IH; exact Hs..]. pose proof (select_assoc cl ix c x d Hs) as H.
    destruct (getitem c x) as [v|] eqn:E1.
    - destruct (picked_item cl ix c d Hs x v E1) as [w [E2 E3]]. rewrite E2. apply IH. apply select_setitem; [exact Hs|]. apply pick_map. exact E3.
    - assert (E2 : exists e, getitem d x = Err e).
      { unfold getitem, column in *. destruct (assoc c x) eqn:EA; [discriminate|]. rewrite H. eexists; reflexivity. }
      destruct E2 as [e' ->]. apply IH. exact Hs. }
  intros c d Hs HN. destruct (G l c d Done Hs) as [d' [G1 G2]].
  match type of HN with ?f = _ => match type of G2 with context [fst ?g] => change g with f in G1, G2 end end. rewrite HN in G1, G2. cbn [fst snd] in *. exists d'. split; assumption.
Qed.

(** ** o[ix] = number *)
Lemma put_rows m n v ix ps e : 1 <= m -> 0 <= n -> zlen v = n * m -> positions n ix = Ok ps -> exists w, put m v ix e = Ok w /\ zlen w = zlen v /\
  forall i r, 0 <= i < n -> 0 <= r < m -> (In i ps -> nth_error w (Z.to_nat (i * m + r)) = Some e) /\ (~ In i ps -> nth_error w (Z.to_nat (i * m + r)) = nth_error v (Z.to_nat (i * m + r))).
Proof.
  intros Hm Hn L E. unfold put. rewrite L, Z.div_mul by lia. rewrite E. cbn [bind]. eexists. split; [reflexivity|].
  pose proof (positions_range n ix ps Hn E) as HP. clear E. revert v L. induction ps as [|p ps IH]; intros v L; cbn [fold_left].
  - split; [exact L|]. intros i r Hi Hr. split; [intros []|reflexivity].
  - pose proof (HP p (or_introl eq_refl)) as Hp.
    set (v' := (firstn (Z.to_nat (p * m)) v ++ repeat e (Z.to_nat m) ++ skipn (Z.to_nat ((p + 1) * m)) v)%list).
    assert (L1 : List.length (firstn (Z.to_nat (p * m)) v) = Z.to_nat (p * m)) by (rewrite firstn_length; unfold zlen in L; nia).
    assert (L' : zlen v' = n * m). { unfold v', zlen. rewrite !app_length, L1, repeat_length, skipn_length. unfold zlen in L. nia. }
    assert (V : forall i r, 0 <= i < n -> 0 <= r < m -> nth_error v' (Z.to_nat (i * m + r)) = if i =? p then Some e else nth_error v (Z.to_nat (i * m + r))).
    { intros i r Hi Hr. unfold v'. destruct (Z.eqb_spec i p) as [->|Hip].
      - rewrite nth_error_app2 by (rewrite L1; nia). rewrite L1. rewrite nth_error_app1 by (rewrite repeat_length; nia).
        apply nth_error_repeat. nia.
      - destruct (Z_lt_le_dec i p).
        + rewrite nth_error_app1 by (rewrite L1; nia). apply nth_error_first. nia.
        + rewrite nth_error_app2 by (rewrite L1; nia). rewrite L1. rewrite nth_error_app2 by (rewrite repeat_length; nia). rewrite repeat_length, nth_error_skip.
          f_equal. nia. }
    destruct (IH ltac:(intros; apply HP; right; assumption) v' L') as [W1 W2]. split; [lia|]. intros i r Hi Hr. destruct (W2 i r Hi Hr) as [W3 W4].
    destruct (in_dec Z.eq_dec i ps) as [Hin|Hin].
    + split; [intros _; apply W3, Hin|]. intros H. destruct H. right. exact Hin.
    + rewrite (W4 Hin), (V i r Hi Hr). destruct (Z.eqb_spec i p) as [->|Hip].
      * split; [reflexivity|]. intros H. destruct H. left. reflexivity.
      * split; [intros [->|H]; [congruence|contradiction]|reflexivity].
Qed.
Lemma set_rows_ok cl ix n c ps e : 0 <= n -> rows_are n cl c -> positions n ix = Ok ps ->
  exists d, set_rows cl c ix e = Ok d /\ map fst d = map fst c /\
    forall x v, assoc c x = Some v -> exists w, assoc d x = Some w /\ zlen w = zlen v /\
      forall i r, 0 <= i < n -> 0 <= r < width cl x ->
        (In i ps -> nth_error w (Z.to_nat (i * width cl x + r)) = Some e) /\
        (~ In i ps -> nth_error w (Z.to_nat (i * width cl x + r)) = nth_error v (Z.to_nat (i * width cl x + r))).
Proof.
  intros Hn HR E. induction c as [|[y u] t IH]; [exists []; split; [reflexivity|]; split; [reflexivity|]; intros x v H; discriminate|].
  destruct IH as [d [E1 [E2 E3]]]; [intros x v H; apply HR; right; exact H|].
  destruct (put_rows (width cl y) n u ix ps e (width_pos cl y) Hn (HR y u (or_introl eq_refl)) E) as [w [F1 F2]].
  exists ((y, w) :: d). cbn [set_rows]. rewrite F1. cbn [bind]. rewrite E1. split; [reflexivity|]. split; [cbn; f_equal; exact E2|].
  intros x v. cbn [assoc]. destruct (String.eqb_spec x y) as [->|]; [|apply E3]. intros H. injection H as <-. exists w. split; [reflexivity|exact F2].
Qed.

(** ** The dict *)
Lemma set_assoc c x v y : assoc (setitem c x v) y = if (x =? y)%string then Some v else assoc c y.
Proof.
  induction c as [|[z u] t IH]; cbn [setitem assoc].
  - rewrite (String.eqb_sym y x). reflexivity.
  - destruct (String.eqb_spec z x) as [->|H]; cbn [assoc].
    + rewrite (String.eqb_sym y x). destruct (x =? y)%string; reflexivity.
    + rewrite IH. destruct (String.eqb_spec y z) as [->|]; [|reflexivity]. destruct (String.eqb_spec x z); [congruence|reflexivity].
Qed.
Lemma pop_assoc c x y : assoc (fst (pop c x)) y = if (x =? y)%string then None else assoc c y.
Proof.
  unfold pop. destruct (assoc c x) as [v|] eqn:E; cbn [fst].
  - clear E. induction c as [|[z u] t IH]; cbn [filter assoc]; [destruct (_ =? _)%string; reflexivity|]. cbn [fst].
    destruct (String.eqb_spec z x) as [->|H]; cbn [negb]; cbn [assoc].
    + rewrite IH. rewrite (String.eqb_sym y x). destruct (x =? y)%string; reflexivity.
    + rewrite IH. destruct (String.eqb_spec y z) as [->|]; [|reflexivity]. destruct (String.eqb_spec x z); [congruence|reflexivity].
  - destruct (String.eqb_spec x y) as [<-|]; [exact E|reflexivity].
Qed.
Lemma history_assoc l : forall c x, assoc (history l c) x = said l x (assoc c x).
Proof.
  induction l as [|e l IH]; intros c x; [reflexivity|]. unfold history in *. cbn [fold_left]. rewrite IH. destruct e as [y v|y]; cbn [happen said].
  - rewrite set_assoc. reflexivity.
  - rewrite pop_assoc. reflexivity.
Qed.
Lemma keys_setitem c x v : NoDup (map fst c) -> NoDup (map fst (setitem c x v)).
Proof.
  induction c as [|[y u] t IH]; cbn [setitem map fst]; intros H; [constructor; [intros []|constructor]|]. inversion H as [|? ? H1 H2]; subst.
  destruct (String.eqb_spec y x) as [->|Hn]; cbn [map fst]; [exact H|]. constructor; [|apply IH, H2].
  intros Hin. apply H1. revert Hin Hn. clear. induction t as [|[z w] t IH]; cbn [setitem map fst In]; [intros [->|[]]; congruence|].
  destruct (String.eqb_spec z x) as [->|]; cbn [map fst In]; [tauto|]. intros [->|Hin] Hn; [left; reflexivity|right; apply IH; assumption].
Qed.
Lemma keys_pop c x : NoDup (map fst c) -> NoDup (map fst (fst (pop c x))).
Proof.
  unfold pop. destruct (assoc c x); [|auto]. cbn [fst]. clear. induction c as [|[y u] t IH]; cbn [filter map fst]; intros H; [constructor|].
  inversion H as [|? ? H1 H2]; subst. destruct (negb (y =? x)%string); [|apply IH, H2]. cbn [map fst]. constructor; [|apply IH, H2].
  intros Hin. apply H1. apply in_map_iff in Hin as [yu [<- Hin]]. apply filter_In in Hin as [Hin _]. apply in_map. exact Hin.
Qed.
Lemma history_keys l : forall c, NoDup (map fst c) -> NoDup (map fst (history l c)).
Proof.
  induction l as [|e l IH]; intros c H; [exact H|]. unfold history in *. cbn [fold_left]. apply IH. destruct e; [apply keys_setitem|apply keys_pop]; exact H.
Qed.
Lemma getitems_all c l (g : string -> list (T N)) : (forall x, In x l -> assoc c x = Some (g x)) -> getitems c l = Ok (map g l).
Proof.
  induction l as [|x l IH]; intros H; [reflexivity|]. cbn [getitems map]. unfold getitem. pose proof (H x (or_introl eq_refl)) as E. unfold column. rewrite E. cbn [bind].
  rewrite IH by (intros; apply H; right; assumption). reflexivity.
Qed.
Lemma fields_nodup cl : NoDup (fields cl).
Proof. destruct cl; cbn; repeat constructor; cbn; intuition discriminate. Qed.
Definition value (o : option (list (T N))) : list (T N) := match o with Some v => v | None => [] end.
Lemma container cl l c : let c' := history l c in let now x := said l x (assoc c x) in
  (forall x, getitem c' x = match now x with Some v => Ok v | None => Err (PyExc KeyError) end) /\
  (forall x, has c' x = true <-> now x <> None) /\
  (forall x, snd (pop c' x) = match now x with Some v => Ok v | None => Err (PyExc KeyError) end) /\
  (exists here, iter cl c' = filter here (fields cl) /\ (forall x, here x = true <-> now x <> None) /\
     tolist cl c' = Ok (map (fun x => value (now x)) (filter here (fields cl)))) /\
  (NoDup (map fst c) -> exists d, as_dict c' None = Ok d /\ NoDup (map fst d) /\ forall x, assoc d x = now x) /\
  (forall names, (forall x, In x names -> now x <> None) -> NoDup names -> exists d, as_dict c' (Some names) = Ok d /\ map fst d = names /\ forall x, In x names -> assoc d x = now x) /\
  (forall names x, In x names -> now x = None -> as_dict c' (Some names) = Err (PyExc KeyError)).
Proof.
  intros c' now. assert (HA : forall x, assoc c' x = now x) by (intros; apply history_assoc).
  assert (HH : forall x, has c' x = true <-> now x <> None) by (intros x; unfold has; rewrite HA; destruct (now x); split; congruence).
  assert (HG : forall names, (forall x, In x names -> now x <> None) -> getitems c' names = Ok (map (fun x => value (now x)) names)).
  { intros names H. apply getitems_all. intros x Hx. rewrite HA. specialize (H x Hx). unfold value. destruct (now x); congruence. }
  assert (HC : forall names x, In x names -> now x <> None -> assoc (combine names (map (fun x => value (now x)) names)) x = now x).
  { intros names x. induction names as [|y names IH]; intros Hin Hx; [destruct Hin|]. cbn [map combine assoc]. destruct (String.eqb_spec x y) as [->|Hne].
    - unfold value. destruct (now y); congruence.
    - apply IH; [destruct Hin; congruence|exact Hx]. }
  assert (HF : forall names : list string, map fst (combine names (map (fun x => value (now x)) names)) = names).
  { induction names as [|y names IH]; [reflexivity|]. cbn. f_equal. exact IH. }
  split; [intros x; unfold getitem; unfold column; rewrite HA; reflexivity|].
  split; [exact HH|]. split; [intros x; unfold pop; rewrite HA; destruct (now x); reflexivity|].
  split.
  { exists (has c'). split; [reflexivity|]. split; [exact HH|]. unfold tolist, iter. apply HG. intros x Hx. apply filter_In in Hx as [_ Hx]. apply HH, Hx. }
  split.
  { intros HND. pose proof (history_keys l c HND) as HK. fold c' in HK. unfold as_dict.
    assert (HI : forall x, In x (map fst c') -> now x <> None).
    { intros x Hx E. apply assoc_In in Hx as [v Hv]. rewrite HA in Hv. congruence. }
    rewrite HG by exact HI. cbn [bind]. eexists. split; [reflexivity|]. split; [rewrite HF; exact HK|].
    intros x. destruct (in_dec string_dec x (map fst c')) as [Hin|Hin]; [apply HC; auto|].
    assert (E : now x = None). { destruct (now x) as [v|] eqn:E; [|reflexivity]. destruct Hin. apply assoc_In. exists v. rewrite HA. exact E. }
    rewrite E. match goal with |- ?a = None => destruct a as [v|] eqn:EA end; [|reflexivity]. exfalso. apply Hin. rewrite <- (HF (map fst c')). apply assoc_In. exists v. exact EA. }
  split.
  { intros names H1 H2. unfold as_dict. rewrite HG by exact H1. cbn [bind]. eexists. split; [reflexivity|]. split; [apply HF|]. intros x Hx. apply HC; auto. }
  intros names x Hin Hx. unfold as_dict. assert (E : getitems c' names = Err (PyExc KeyError)).
  { induction names as [|y names IH]; [destruct Hin|]. cbn [getitems]. unfold getitem. unfold column. rewrite HA. destruct (now y) as [v|] eqn:Ey; [|reflexivity]. cbn [bind].
    rewrite IH; [reflexivity|]. destruct Hin; congruence. }
  rewrite E. reflexivity.
Qed.
End InPlace.
Lemma outside_iteration {N : Num} (cl : pyclass) (v : list (T N)) : let c := setitem (N := N) [] "weights" v in
  has (N := N) c "weights" = true /\ iter (N := N) cl c = [] /\ tolist (N := N) cl c = Ok [].
Proof. destruct cl; repeat split. Qed.
