(** ProofPy: lemmas about the Python arithmetic on columns. *)
From Coq Require Import Reals ZArith List String Lia Lra Bool.
From Verif Require Import Base Num BaseFacts Common Registry PyTerms Spec SpecPy Sums.
Import ListNotations.
Local Open Scope R_scope.

(** ** Association lists *)
Section Assoc.
Context {N : Num}.
Lemma assoc_In {A} (l : list (string * A)) x : In x (map fst l) <-> exists v, assoc l x = Some v.
Proof.
  induction l as [|[y w] l IH]; cbn.
  - split; [intros []|intros (v & H); discriminate].
  - destruct (String.eqb_spec x y) as [->|E].
    + split; [intros _; exists w; reflexivity|intros _; left; reflexivity].
    + rewrite <- IH. split; [intros [H|H]; [congruence|exact H]|auto].
Qed.
Lemma getitem_set (c : columns N) x v y : getitem (setitem c x v) y = if String.eqb x y then Ok v else getitem c y.
Proof.
  unfold getitem. induction c as [|[z w] c IH]; cbn.
  - rewrite String.eqb_sym. destruct (String.eqb x y); reflexivity.
  - destruct (String.eqb_spec z x) as [->|E]; cbn.
    + rewrite String.eqb_sym. destruct (String.eqb x y); reflexivity.
    + destruct (String.eqb_spec y z) as [->|E2].
      * destruct (String.eqb_spec x z) as [->|E3]; [congruence|reflexivity].
      * exact IH.
Qed.
Lemma keys_set (c : columns N) x v : In x (map fst c) -> map fst (setitem c x v) = map fst c.
Proof.
  induction c as [|[z w] c IH]; cbn; [intros []|]. destruct (String.eqb_spec z x) as [->|E]; [reflexivity|].
  intros [H|H]; [congruence|]. cbn. rewrite IH by exact H. reflexivity.
Qed.
End Assoc.
Lemma getitem_assoc {N} (c : columns N) x v : getitem c x = Ok v <-> assoc c x = Some v.
Proof. unfold getitem. destruct (assoc c x); split; intros H; congruence. Qed.
Lemma getitem_complete {N} cl (c : columns N) n x : complete cl c n -> In x (fields cl) ->
  exists v, getitem c x = Ok v /\ List.length v = (n * match ncomp cl x with Some m => Z.to_nat m | None => 1 end)%nat.
Proof.
  intros [H1 H2] H. apply H1, assoc_In in H as (v & H). apply getitem_assoc in H. exists v. split; [exact H|apply H2, H].
Qed.

(** ** Rescaling *)
Definition scale_of (cl : pyclass) (x : string) : Z := match assoc (scales cl) x with Some s => s | None => 0%Z end.
Lemma rescale_val {N} cl (c : columns N) (D : T N) : (forall x, In x (map fst c) -> In x (fields cl)) ->
  exists c', rescale cl c D = (c', Done) /\ map fst c' = map fst c /\
    forall x, getitem c' x = match getitem c x with
      | Ok v => Ok (map (fun e => nmul N e (npow D (nZ N (2 * scale_of cl x)))) v) | Err e => Err e end.
Proof.
  induction c as [|[y w] c IH]; intros H; cbn [rescale].
  - exists []. repeat split.
  - destruct IH as (c' & E & K & G); [intros x Hx; apply H; right; exact Hx|].
    assert (Hy : exists s, assoc (scales cl) y = Some s).
    { apply assoc_In. specialize (H y (or_introl eq_refl)). destruct cl; cbn in H |- *; tauto. }
    destruct Hy as (s & Hs). rewrite Hs, E. eexists. split; [reflexivity|]. split; [cbn; rewrite K; reflexivity|].
    intros x. unfold getitem, scale_of. cbn. destruct (String.eqb_spec x y) as [->|Ne].
    + rewrite Hs. reflexivity.
    + exact (G x).
Qed.
Lemma pow2 D : Rpow D 2 = D^2. Proof. exact (Rpow_nat D 2). Qed.
Lemma pow3 D : Rpow D 3 = D^3. Proof. exact (Rpow_nat D 3). Qed.
Lemma pow4 D : Rpow D 4 = D^4. Proof. exact (Rpow_nat D 4). Qed.
Lemma pow6 D : Rpow D 6 = D^6. Proof. exact (Rpow_nat D 6). Qed.
Lemma pow8 D : Rpow D 8 = D^8. Proof. exact (Rpow_nat D 8). Qed.
Lemma pow0 D : Rpow D 0 = 1. Proof. exact (Rpow_nat D 0). Qed.
Ltac pows := cbn [npow RNum nZ Z.mul Pos.mul]; rewrite ?pow0, ?pow2, ?pow3, ?pow4, ?pow6, ?pow8.
Lemma scale_pow cl x D : Rpow D (IZR (2 * scale_of cl x)) = D ^ Z.to_nat (2 * scale_of cl x).
Proof.
  assert (0 <= scale_of cl x)%Z.
  { unfold scale_of. destruct (assoc (scales cl) x) as [s|] eqn:E; [|lia].
    destruct cl; cbn in E; repeat (destruct (String.eqb x _); [injection E as <-; lia|]); discriminate. }
  rewrite <- Rpow_nat. rewrite Z2Nat.id by lia. reflexivity.
Qed.
Lemma getitem_scaled cl (c c' : columns RNum) (D : R) :
  (forall x, getitem c' x = match getitem c x with
      | Ok v => Ok (map (fun e => nmul RNum e (npow (n := RNum) D (nZ RNum (2 * scale_of cl x)))) v) | Err e => Err e end) ->
  forall x, getitem c' x = match getitem c x with
      | Ok v => Ok (map (fun e : R => e * D ^ Z.to_nat (2 * scale_of cl x)) v) | Err e => Err e end.
Proof.
  intros H x. rewrite (H x). destruct (getitem c x) as [v|e]; [|reflexivity]. f_equal. apply map_ext. intros a. rn.
  rewrite scale_pow. reflexivity.
Qed.

(** ** Element by element *)
Lemma elementwise_ok {N} (f : list (T N) -> T N) (cs : list (list (T N))) n : cs <> [] -> (forall c, In c cs -> List.length c = n) ->
  elementwise f cs = Ok (map (fun i => f (map (fun d => nth i d (nZ N 0)) cs)) (seq 0 n)).
Proof.
  intros H0 H. unfold elementwise. destruct cs as [|c cs]; [congruence|].
  rewrite (H c (or_introl eq_refl)). replace (forallb _ _) with true; [reflexivity|]. symmetry. apply forallb_forall.
  intros d Hd. apply Nat.eqb_eq, H, Hd.
Qed.
Definition zipmul (l m : list R) : list R := map (fun p => fst p * snd p) (combine l m).
Lemma elementwise_scaled (f g : list R -> R) (cs : list (list R)) (ss : list R) :
  List.length ss = List.length cs -> (forall row, List.length row = List.length cs -> f (zipmul row ss) = g row) ->
  elementwise (N := RNum) f (map (fun p => map (fun e => e * snd p) (fst p)) (combine cs ss)) = elementwise (N := RNum) g cs.
Proof.
  intros L H. unfold elementwise. destruct cs as [|c cs]; [destruct ss; [reflexivity|discriminate]|].
  destruct ss as [|s ss]; [discriminate|]. cbn [combine map fst snd].
  assert (E : forall (cc : list (list R)) (sl : list R) m, List.length sl = List.length cc ->
    forallb (fun d => Nat.eqb (List.length d) m) (map (fun p => map (fun e => e * snd p) (fst p)) (combine cc sl)) = forallb (fun d => Nat.eqb (List.length d) m) cc).
  { induction cc as [|x cc IH]; intros [|y sl] m Hl; try discriminate; [reflexivity|]. cbn. rewrite map_length, IH by (cbn in Hl; lia). reflexivity. }
  assert (E2 := E (c :: cs) (s :: ss) (List.length c) L). cbn [combine map fst snd] in E2. rewrite map_length.
  match goal with |- (if ?b then _ else _) = (if ?d then _ else _) => replace b with d by (symmetry; exact E2); destruct d; [|reflexivity] end. f_equal. apply map_ext. intros i.
  etransitivity; [|exact (H (map (fun d => nth i d 0) (c :: cs)) (map_length _ _))].
  f_equal. unfold zipmul. clear - L.
  assert (G : forall (cc : list (list R)) (sl : list R), List.length sl = List.length cc ->
    map (fun d : list R => nth i d 0) (map (fun p => map (fun e => e * snd p) (fst p)) (combine cc sl))
    = map (fun p => fst p * snd p) (combine (map (fun d => nth i d 0) cc) sl)).
  { induction cc as [|x cc IH]; intros [|y sl] Hl; try discriminate; [reflexivity|]. cbn. f_equal; [|apply IH; cbn in Hl; lia].
    replace 0 with (0 * y) at 1 by ring. apply (map_nth (fun e => e * y)). }
  exact (G (c :: cs) (s :: ss) L).
Qed.

(** ** Reading off a rescaled object *)
Section Rescaled.
Variables (cl : pyclass) (c c' : columns RNum) (D : R).
Hypothesis G : forall x, getitem c' x = match getitem c x with
      | Ok v => Ok (map (fun e : R => e * D ^ Z.to_nat (2 * scale_of cl x)) v) | Err e => Err e end.
Lemma accessor_rescaled name E : accessor (N := RNum) cl name c' E = accessor (N := RNum) cl name c (D * E).
Proof.
  unfold accessor. destruct (assoc (accessors cl) name) as [[npk x]|] eqn:A; [|reflexivity].
  assert (S : npk = scale_of cl x /\ (npk = 1 \/ npk = 2)%Z).
  { destruct cl; cbn in A; repeat (destruct (String.eqb name _); [injection A as <- <-; split; [reflexivity|auto]|]); discriminate. }
  destruct S as [S1 S2]. unfold scale_factor. rewrite G. destruct (getitem c x) as [v|e]; [|reflexivity]. cbn [bind].
  f_equal. rewrite map_map. apply map_ext. intros a. rewrite <- S1. rn.
  destruct S2 as [-> | ->]; [change (Z.to_nat (2 * 1)) with 2%nat|change (Z.to_nat (2 * 2)) with 4%nat]; pows; rewrite Rpow_mult_distr; ring.
Qed.

End Rescaled.
Ltac scaled cl := repeat match goal with |- context [Z.to_nat (2 * scale_of cl ?x)] =>
  let n := eval vm_compute in (Z.to_nat (2 * scale_of cl x)) in change (Z.to_nat (2 * scale_of cl x)) with n end.
Lemma getitems_scaled cl (c c' : columns RNum) (D : R) (G : forall x, getitem c' x = match getitem c x with
      | Ok v => Ok (map (fun e : R => e * D ^ Z.to_nat (2 * scale_of cl x)) v) | Err e => Err e end) l :
  getitems (N := RNum) c' l = match getitems (N := RNum) c l with
     | Ok vs => Ok (map (fun p : list R * R => map (fun e => e * snd p) (fst p)) (combine vs (map (fun x => D ^ Z.to_nat (2 * scale_of cl x)) l)))
     | Err e => Err e end.
Proof.
  induction l as [|x l IH]; [reflexivity|]. cbn [getitems]. rewrite G. destruct (getitem c x) as [v|e]; [|reflexivity].
  cbn [bind]. rewrite IH. destruct (getitems c l); reflexivity.
Qed.
Lemma getitems_len {N} (c : columns N) l vs : getitems c l = Ok vs -> List.length vs = List.length l.
Proof.
  revert vs; induction l as [|x l IH]; intros vs H; cbn [getitems] in H; [injection H as <-; reflexivity|].
  destruct (getitem c x); [|discriminate]. cbn [bind] in H. destruct (getitems c l); [|discriminate]. cbn [bind] in H. injection H as <-. cbn. rewrite (IH _ eq_refl). reflexivity.
Qed.
Lemma row_scaled_1 D E row : List.length row = 6%nat ->
  pk_1loop_row (N := RNum) E (zipmul row [D^0; D^2; D^2; D^2; D^2; D^4]) = pk_1loop_row (N := RNum) (D * E) row.
Proof.
  intros L. do 6 (destruct row as [|? row]; [discriminate|]). destruct row; [|discriminate].
  cbn [zipmul combine map fst snd pk_1loop_row]. rn. pows. unfold Rdiv.
  match goal with |- context [exp (- ?a)] => set (A := a) end.
  match goal with |- _ = ?r => match r with context [exp (- ?b)] => set (B := b) end end.
  assert (A = B) as -> by (unfold A, B; ring). ring.
Qed.
Lemma row_scaled_2 D E row : List.length row = 11%nat ->
  pk_2loop_row (N := RNum) E (zipmul row [D^0; D^2; D^2; D^4; D^2; D^4; D^2; D^4; D^6; D^8; D^6]) = pk_2loop_row (N := RNum) (D * E) row.
Proof.
  intros L. do 11 (destruct row as [|? row]; [discriminate|]). destruct row; [|discriminate].
  cbn [zipmul combine map fst snd pk_2loop_row]. rn. pows. unfold Rdiv.
  match goal with |- context [exp (- ?a)] => set (A := a) end.
  match goal with |- _ = ?r => match r with context [exp (- ?b)] => set (B := b) end end.
  assert (A = B) as -> by (unfold A, B; ring).
  set (e := exp (- B)). set (e2 := exp (- (2) * B)). clearbody e e2 B. f_equal; [f_equal|]; ring.
Qed.
Section Rescaled2.
Variables (cl : pyclass) (c c' : columns RNum) (D : R).
Hypothesis G : forall x, getitem c' x = match getitem c x with
      | Ok v => Ok (map (fun e : R => e * D ^ Z.to_nat (2 * scale_of cl x)) v) | Err e => Err e end.
Lemma read_1loop_rescaled E : cl = C1Loop -> pk_1loop (N := RNum) c' E None = pk_1loop (N := RNum) c (D * E) None.
Proof.
  intros ->. unfold pk_1loop. rewrite (G "sigmad2"), (G "k"), (getitems_scaled _ _ _ _ G). cbv iota.
  destruct (getitem c "sigmad2") as [s|]; [|reflexivity]. destruct (getitem c "k") as [k|]; [|reflexivity]. cbn [bind].
  destruct (getitems c _) as [vs|] eqn:V; [|reflexivity]. cbn [bind]. apply getitems_len in V.
  exact (elementwise_scaled (pk_1loop_row (N := RNum) E) (pk_1loop_row (N := RNum) (D * E)) (k :: s :: vs) [D^0; D^2; D^2; D^2; D^2; D^4]
    (eq_sym (f_equal (fun n => S (S n)) V)) (fun row L => row_scaled_1 D E row (eq_trans L (f_equal (fun n => S (S n)) V)))).
Qed.
Lemma read_2loop_rescaled E : cl = C2Loop -> pk_2loop (N := RNum) c' E None = pk_2loop (N := RNum) c (D * E) None.
Proof.
  intros ->. unfold pk_2loop. rewrite (G "sigmad2"), (G "k"), (getitems_scaled _ _ _ _ G). cbv iota.
  destruct (getitem c "sigmad2") as [s|]; [|reflexivity]. destruct (getitem c "k") as [k|]; [|reflexivity]. cbn [bind].
  destruct (getitems c _) as [vs|] eqn:V; [|reflexivity]. cbn [bind]. apply getitems_len in V.
  exact (elementwise_scaled (pk_2loop_row (N := RNum) E) (pk_2loop_row (N := RNum) (D * E)) (k :: s :: vs) [D^0; D^2; D^2; D^4; D^2; D^4; D^2; D^4; D^6; D^8; D^6]
    (eq_sym (f_equal (fun n => S (S n)) V)) (fun row L => row_scaled_2 D E row (eq_trans L (f_equal (fun n => S (S n)) V)))).
Qed.
Lemma read_damped_rescaled x E : cl = CBias -> scale_of CBias x = 2%Z -> pk_damped (N := RNum) x c' E None = pk_damped (N := RNum) x c (D * E) None.
Proof.
  intros -> S. unfold pk_damped, damping_factor. rewrite (G "sigmad2"), (G "k"), (G x), S. cbv iota.
  destruct (getitem c "k") as [k|]; [|reflexivity]. destruct (getitem c "sigmad2") as [s|]; [|reflexivity]. cbn [bind].
  destruct (getitem c x) as [v|]; [|reflexivity]. cbn [bind].
  refine (elementwise_scaled _ _ [k; s; v] [D^0; D^2; D^4] eq_refl _).
  intros row L. do 3 (destruct row as [|? row]; [discriminate|]). destruct row; [|discriminate].
  cbn [zipmul combine map fst snd]. rn. pows. unfold Rdiv.
  match goal with |- context [exp (?d * ?a)] => set (A := a) end.
  match goal with |- _ = ?r => match r with context [exp (_ * ?b)] => set (B := b) end end.
  assert (A = B) as -> by (unfold A, B; ring). ring.
Qed.
End Rescaled2.
Lemma read_rescaled cl (c c' : columns RNum) (D : R) (G : forall x, getitem c' x = match getitem c x with
      | Ok v => Ok (map (fun e : R => e * D ^ Z.to_nat (2 * scale_of cl x)) v) | Err e => Err e end) o E : o <> O_sigma3sq -> read_off cl o c' E = read_off (N := RNum) cl o c (D * E).
Proof.
  intros H. destruct o as [x| |x|]; cbn [read_off].
  - apply accessor_rescaled, G.
  - destruct cl; try reflexivity; [apply (read_1loop_rescaled C1Loop _ _ _ G)|apply (read_2loop_rescaled C2Loop _ _ _ G)]; reflexivity.
  - destruct cl; try reflexivity. destruct (existsb _ _) eqn:X; [|reflexivity]. apply (read_damped_rescaled CBias _ _ _ G); [reflexivity|].
    cbn [existsb] in X. repeat (apply orb_prop in X; destruct X as [X|X]; [apply String.eqb_eq in X; subst; reflexivity|]). discriminate.
  - congruence.
Qed.
Lemma rescale_reads cl (c : columns RNum) n (D : R) : complete cl c n ->
  exists c', rescale (N := RNum) cl c D = (c', Done) /\ complete cl c' n /\
    forall o E, o <> O_sigma3sq -> read_off cl o c' E = read_off (N := RNum) cl o c (D * E).
Proof.
  intros [H1 H2]. destruct (rescale_val (N := RNum) cl c D) as (c' & R1 & R2 & R3); [intros x; apply H1|].
  exists c'. split; [exact R1|]. split.
  - split; [rewrite R2; exact H1|]. intros x v. rewrite R3. destruct (getitem c x) as [w|] eqn:W; [|discriminate].
    intros [= <-]. rewrite map_length. apply H2, W.
  - intros o E Ho. apply read_rescaled; [|exact Ho]. apply getitem_scaled, R3.
Qed.
Lemma rescale_compose cl (c c1 c2 : columns RNum) (D E : R) : rescale (N := RNum) cl c D = (c1, Done) -> rescale (N := RNum) cl c1 E = (c2, Done) ->
  rescale (N := RNum) cl c (D * E) = (c2, Done).
Proof.
  revert c1 c2; induction c as [|[x v] c IH]; intros c1 c2 H1 H2; cbn [rescale] in H1.
  - injection H1 as <-. injection H2 as <-. reflexivity.
  - cbn [rescale]. pose proof (scale_pow cl x) as SP. unfold scale_of in SP. destruct (assoc (scales cl) x) as [s|] eqn:S; [|discriminate].
    destruct (rescale cl c D) as [t o] eqn:T1. injection H1 as <- ->. cbn [rescale] in H2. rewrite S in H2.
    destruct (rescale cl t E) as [t' o] eqn:T2. injection H2 as <- ->. rewrite (IH _ _ eq_refl T2). f_equal. f_equal. f_equal.
    rewrite map_map. apply map_ext. intros a. rn. rewrite !SP, Rpow_mult_distr. ring.
Qed.
Lemma rescale_one cl (c : columns RNum) n : complete cl c n -> rescale (N := RNum) cl c 1 = (c, Done).
Proof.
  intros [H _]. assert (K : forall x, In x (map fst c) -> In x (fields cl)) by (intros x; apply H). clear H.
  induction c as [|[x v] c IH]; [reflexivity|]. cbn [rescale]. pose proof (scale_pow cl x) as SP. unfold scale_of in SP.
  assert (Hy : exists s, assoc (scales cl) x = Some s).
  { apply assoc_In. specialize (K x (or_introl eq_refl)). destruct cl; cbn in K |- *; tauto. }
  destruct Hy as (s & S). rewrite S in SP |- *. rewrite IH by (intros y Hy; apply K; right; exact Hy). f_equal. f_equal. f_equal.
  rewrite <- (map_id v) at 2. apply map_ext. intros a. rn. rewrite SP, pow1. ring.
Qed.
