(** ProofDefined9: when the integrands given to Suave have a value. *)
From Coq Require Import ZArith Lia List Reals Lra.
From Verif Require Import Base Num BaseFacts Spec Common Kernels GExpr Gamma2 Integrals SpecDefined ProofSearch ProofKernels ProofGL ProofGL2 ProofFindPkR ProofIntegrals4 ProofIntegrals7
  ProofDefined ProofDefined2 ProofDefined3 ProofDefined4 ProofDefined5 ProofDefined6 ProofDefined7 ProofDefined8.
Import ListNotations.
Local Open Scope R_scope.

Lemma sph_norm p s c a b : s * s + c * c = 1 -> a * a + b * b = 1 -> (p * s * a) * (p * s * a) + (p * s * b) * (p * s * b) + (p * c) * (p * c) = p * p.
Proof. intros H1 H2. replace ((p * s * a) * (p * s * a) + (p * s * b) * (p * s * b) + (p * c) * (p * c)) with (p * p * (s * s * (a * a + b * b) + c * c)) by ring. rewrite H2, Rmult_1_r, H1. ring. Qed.
Lemma sc1 t : sin t * sin t + cos t * cos t = 1.
Proof. pose proof (sin2_cos2 t) as H. unfold Rsqr in H. exact H. Qed.
Lemma cs1 t : cos t * cos t + sin t * sin t = 1.
Proof. pose proof (sc1 t). lra. Qed.
Lemma power6_pi : power (N := RNum) (2 * PI) 6 <> 0.
Proof. change (power (N := RNum) (2 * PI) 6) with (1 * (2 * PI * (2 * PI)) * (2 * PI * (2 * PI) * (2 * PI * (2 * PI)))). pose proof PI_RGT_0. assert (H1 : 2 * PI <> 0) by lra. set (t := 2 * PI) in *. clearbody t. repeat match goal with |- _ * _ <> 0 => apply Rmult_integral_contrapositive_currified end; try assumption; lra. Qed.
Lemma power3_pi : power (N := RNum) (2 * PI) 3 <> 0.
Proof. change (power (N := RNum) (2 * PI) 3) with (1 * (2 * PI) * (2 * PI * (2 * PI))). pose proof PI_RGT_0. assert (H1 : 2 * PI <> 0) by lra. set (t := 2 * PI) in *. clearbody t. repeat match goal with |- _ * _ <> 0 => apply Rmult_integral_contrapositive_currified end; try assumption; lra. Qed.

Lemma kernel_gamma3_O pkl im qmin qmax l1 l2 k a b xx : good_table pkl -> 0 < qmin ->
  kernel_pk_gamma3_tree (N := ONum) (opk pkl) im (Some qmin) (Some qmax) (Some l1) (Some l2) (Some k) a b (os xx)
  = res_map Some (kernel_pk_gamma3_tree (N := RNum) pkl im qmin qmax l1 l2 k a b xx).
Proof.
  intros Hp Hq. unfold kernel_pk_gamma3_tree. rdl x0 Ex0. rdl x1 Ex1. rdl x2 Ex2. rdl x3 Ex3. rdl x4 Ex4. on. cbn [v0 v1 v2].
  set (p := exp (l1 + (l2 - l1) * x0)). set (q := exp (l1 + (l2 - l1) * x3)).
  assert (P0 : 0 < p) by apply exp_pos. assert (Q0 : 0 < q) by apply exp_pos.
  set (pp := mkV (N := RNum) (p * sin (x1 * PI) * cos (x2 * 2 * PI)) (p * sin (x1 * PI) * sin (x2 * 2 * PI)) (p * cos (x1 * PI))).
  set (qq := mkV (N := RNum) (q * sin (x4 * PI)) 0 (q * cos (x4 * PI))).
  match goal with |- context [mkV (N := ONum) (Some (- v0 pp - v0 qq))] => idtac | _ => idtac end.
  on. cbn [v0 v1 v2].
  set (kpq := mkV (N := RNum) (- (p * sin (x1 * PI) * cos (x2 * 2 * PI)) - q * sin (x4 * PI)) (- (p * sin (x1 * PI) * sin (x2 * 2 * PI)) - 0) (k - p * cos (x1 * PI) - q * cos (x4 * PI))).
  set (kp := mkV (N := RNum) (- (p * sin (x1 * PI) * cos (x2 * 2 * PI))) (- (p * sin (x1 * PI) * sin (x2 * 2 * PI))) (k - p * cos (x1 * PI))).
  change (mkV (N := ONum) (Some (p * sin (x1 * PI) * cos (x2 * 2 * PI))) (Some (p * sin (x1 * PI) * sin (x2 * 2 * PI))) (Some (p * cos (x1 * PI)))) with (ovec pp).
  change (mkV (N := ONum) (Some (q * sin (x4 * PI))) (Some 0) (Some (q * cos (x4 * PI)))) with (ovec qq).
  change (mkV (N := ONum) (Some (- (p * sin (x1 * PI) * cos (x2 * 2 * PI)) - q * sin (x4 * PI))) (Some (- (p * sin (x1 * PI) * sin (x2 * 2 * PI)) - 0)) (Some (k - p * cos (x1 * PI) - q * cos (x4 * PI)))) with (ovec kpq).
  change (mkV (N := ONum) (Some (- (p * sin (x1 * PI) * cos (x2 * 2 * PI)))) (Some (- (p * sin (x1 * PI) * sin (x2 * 2 * PI)))) (Some (k - p * cos (x1 * PI)))) with (ovec kp).
  rewrite !norm3_O, !dot3_O. on. lits.
  assert (Hpp : dot3 (N := RNum) pp pp <> 0).
  { unfold dot3, pp. cbn [v0 v1 v2]. rn. rewrite sph_norm by (apply sc1 || apply cs1). apply Rmult_integral_contrapositive_currified; lra. }
  assert (Hqq : dot3 (N := RNum) qq qq <> 0).
  { unfold dot3, qq. cbn [v0 v1 v2]. rn. pose proof (sc1 (x4 * PI)) as S. set (s := sin (x4 * PI)) in *. set (c := cos (x4 * PI)) in *.
    replace (q * s * (q * s) + 0 * 0 + q * c * (q * c)) with (q * q * (s * s + c * c)) by ring. rewrite S. apply Rmult_integral_contrapositive_currified; [apply Rmult_integral_contrapositive_currified|]; lra. }
  clearbody pp qq kpq kp.
  destruct (Rleb_spec qmin (norm3 (N := RNum) kpq)) as [L|L]; [|reflexivity]. destruct (Rleb (norm3 (N := RNum) kpq) qmax); [|reflexivity]. cbn [andb].
  destruct (Rleb (dot3 (N := RNum) qq kp) _); [|reflexivity].
  assert (Hn : 0 < norm3 (N := RNum) kpq) by lra. fnd u1. fnd u2. fnd u3.
  rewrite !F3_sym_O by (try assumption; apply norm3_pos, Hn). reflexivity.
Qed.

(** ** Lookups which are made but not used *)
Definition weak (x : R) (r : res R) (r' : res (option R)) : Prop :=
  match r with Ok v => exists v', r' = Ok v' /\ (0 < x -> v' = Some v) | Err e => r' = Err e end.
Lemma bind_weak {A B} (L : A -> B) x r r' (f : R -> res A) (g : option R -> res B) : weak x r r' ->
  (forall v v', r = Ok v -> (0 < x -> v' = Some v) -> g v' = res_map L (f v)) -> bind r' g = res_map L (bind r f).
Proof. intros W H. destruct r as [v|e]; cbn [weak] in W; [destruct W as (v' & -> & Hv); cbn; apply H; auto|rewrite W; reflexivity]. Qed.
Lemma bind_assoc {A B C} (x : res A) (f : A -> res B) (g : B -> res C) : bind (bind x f) g = bind x (fun a => bind (f a) g).
Proof. destruct x; reflexivity. Qed.
Lemma weak_bind {A B} (L : A -> B) x r r' (f : A -> res R) (g : B -> res (option R)) : r' = res_map L r -> (forall a, r = Ok a -> weak x (f a) (g (L a))) -> weak x (bind r f) (bind r' g).
Proof. intros -> H. destruct r; cbn; [apply H; reflexivity|reflexivity]. Qed.
Lemma lowk_weak (K P : list R) : length P = length K -> (3 <= zlen K < 2 ^ 62)%Z -> increasing K -> (forall x, In x K -> 0 < x) ->
  weak 0 (extrapol_pk_lowk (N := RNum) (mk_table (N := RNum) K P) 0) (extrapol_pk_lowk (N := ONum) (opk (mk_table (N := RNum) K P)) (Some 0)).
Proof.
  intros H1 H2 H3 H4. unfold extrapol_pk_lowk. change (pk_n (opk (mk_table (N := RNum) K P))) with (zlen K). change (pk_n (mk_table (N := RNum) K P)) with (zlen K).
  change (T RNum) with R. cbv zeta. refine (weak_bind osum _ _ _ _ _ _ _).
  - idtac. apply (sum_slopes_O K P); try assumption; [lia|]. rewrite zmin_mn, u64_small by (unfold SIZE_T; lia). lia.
  - intros [s|r] _; cbn [osum]; [|cbn; exists (Some r); auto].
    apply (weak_bind Some); [apply rd_os|]. intros u _. apply (weak_bind Some); [apply rd_os|]. intros w _. cbn. eexists. split; [reflexivity|]. intros; lra.
Qed.
Lemma find1_weak pk im k : good_table pk -> 0 <= k -> weak k (find1 (N := RNum) pk im k) (find1 (N := ONum) (opk pk) im (Some k)).
Proof.
  intros Hg H0. destruct H0 as [H|<-].
  - rewrite (find1_O pk im k Hg H). destruct (find1 (N := RNum) pk im k) as [v|e]; cbn; [exists (Some v); auto|reflexivity].
  - destruct Hg as [(K & P & -> & H1 & H2 & H3 & H4)]. unfold find1, find_pk. rewrite !bind_assoc. apply (weak_bind Some); [apply rd_os|]. intros a Ea.
    rewrite !bind_assoc. apply (weak_bind Some); [apply rd_os|]. intros b Eb. apply rd_In in Ea, Eb. apply H4 in Ea, Eb. cbn [find_pk_loop]. unfold find_pk_step. on.
    rewrite (proj2 (Rltb_false b 0)) by lra. rewrite (proj2 (Rltb_true 0 a)) by lra. pose proof (lowk_weak K P H1 H2 H3 H4) as W.
    destruct (extrapol_pk_lowk (N := RNum) _ _) as [v|e]; cbn [weak] in W.
    + destruct W as (v' & W & _). rewrite W. cbn. eexists. split; [reflexivity|]. intros; lra.
    + rewrite W. reflexivity.
Qed.
Lemma cond_add (b b' : bool) (acc t : R) (acc' t' : option R) : b' = b -> acc' = Some acc -> (b = true -> t' = Some t) ->
  (if b' then lift2 Rplus acc' t' else acc') = Some (if b then acc + t else acc).
Proof. intros -> -> H. destruct b; [rewrite H by reflexivity; reflexivity|reflexivity]. Qed.
Lemma norm3_nonneg (u : vec RNum) : 0 <= norm3 (N := RNum) u.
Proof. apply sqrt_pos. Qed.
Lemma mul2 x y a b : x = Some a -> y = Some b -> lift2 Rmult x y = Some (a * b).
Proof. intros -> ->. reflexivity. Qed.
Lemma add2 x y a b : x = Some a -> y = Some b -> lift2 Rplus x y = Some (a + b).
Proof. intros -> ->. reflexivity. Qed.
Definition op (x : R * R) := (Some (fst x), Some (snd x)).
Lemma bispectrum_II_III_O pkl im k0 k1 k2 qq a b c : good_table pkl -> 0 < norm3 (N := RNum) k0 -> 0 < norm3 (N := RNum) k1 -> 0 < norm3 (N := RNum) k2 -> 0 < norm3 (N := RNum) qq ->
  bispectrum_1loop_II_III (N := ONum) (opk pkl) im (ovec k0) (ovec k1) (ovec k2) (ovec qq) a b c = res_map op (bispectrum_1loop_II_III (N := RNum) pkl im k0 k1 k2 qq a b c).
Proof.
  intros Hp H0 H1 H2 Hq. unfold bispectrum_1loop_II_III.
  repeat match goal with |- context [vsub (N := ONum) (ovec ?u) (ovec ?v)] => change (vsub (N := ONum) (ovec u) (ovec v)) with (ovec (vsub (N := RNum) u v)) end.
  repeat match goal with |- context [vadd (N := ONum) (ovec ?u) (ovec ?v)] => change (vadd (N := ONum) (ovec u) (ovec v)) with (ovec (vadd (N := RNum) u v)) end.
  repeat match goal with |- context [vopp (N := ONum) (ovec ?u)] => change (vopp (N := ONum) (ovec u)) with (ovec (vopp (N := RNum) u)) end.
  rewrite !norm3_O. cbv zeta.
  set (pp0 := vsub k0 qq). set (pp1 := vsub k1 qq). set (pp2 := vsub k2 qq). set (rr0 := vadd k0 qq). set (rr1 := vadd k1 qq). set (rr2 := vadd k2 qq). set (oqq := vopp qq).
  assert (Ho : dot3 (N := RNum) oqq oqq = dot3 (N := RNum) qq qq) by (unfold oqq, dot3, vopp; cbn [v0 v1 v2]; rn; ring).
  clearbody pp0 pp1 pp2 rr0 rr1 rr2 oqq.
  pose proof (norm3_pos _ H0) as D0. pose proof (norm3_pos _ H1) as D1. pose proof (norm3_pos _ H2) as D2. pose proof (norm3_pos _ Hq) as Dq. rewrite <- Ho in Dq. pose proof Dq as Do. rewrite Ho in Dq.
  fnd pq.
  fnd pk0. apply (bind_weak _ (norm3 (N := RNum) pp0)); [apply find1_weak; [exact Hp|apply norm3_nonneg]|]. intros pp0v pp0w _ Wp0.
  apply (bind_weak _ (norm3 (N := RNum) rr0)); [apply find1_weak; [exact Hp|apply norm3_nonneg]|]. intros pr0v pr0w _ Wr0.
  fnd pk1. apply (bind_weak _ (norm3 (N := RNum) pp1)); [apply find1_weak; [exact Hp|apply norm3_nonneg]|]. intros pp1v pp1w _ Wp1.
  apply (bind_weak _ (norm3 (N := RNum) rr1)); [apply find1_weak; [exact Hp|apply norm3_nonneg]|]. intros pr1v pr1w _ Wr1.
  fnd pk2. apply (bind_weak _ (norm3 (N := RNum) pp2)); [apply find1_weak; [exact Hp|apply norm3_nonneg]|]. intros pp2v pp2w _ Wp2.
  apply (bind_weak _ (norm3 (N := RNum) rr2)); [apply find1_weak; [exact Hp|apply norm3_nonneg]|]. intros pr2v pr2w _ Wr2.
  on. rewrite power_O, !odiv_some by apply power3_pi. cbn [res_map]. unfold op. cbn [fst snd].
  match goal with |- Ok (?x, ?y) = Ok (Some ?u, Some ?v) => enough (Q1 : x = Some u); [enough (Q2 : y = Some v); [rewrite Q1, Q2; reflexivity|]|] end.
  all: apply mul2; [|reflexivity].
  all: repeat first [apply cond_add; [reflexivity| |intros Eb] | reflexivity].
  all: try (apply andb_prop in Eb; destruct Eb as [Eb Eb']; apply Rltb_true in Eb, Eb').
  all: try match type of Eb with Rltb _ _ = true => apply Rltb_true in Eb end.
  all: try (rewrite !F2_sym_full_O by (try assumption; apply norm3_pos; lra)); try (rewrite !F3_sym_O by (try assumption; apply norm3_pos; lra)).
  all: try (rewrite Wp0 by lra); try (rewrite Wp1 by lra); try (rewrite Wp2 by lra); try (rewrite Wr0 by lra); try (rewrite Wr1 by lra); try (rewrite Wr2 by lra).
  all: reflexivity.
Qed.
