(** ProofDefined3: when the functions of common.c have a value. *)
From Coq Require Import ZArith Lia List Reals Lra.
From Verif Require Import Base Num BaseFacts Spec Common Kernels Integrals SpecDefined ProofSearch ProofKernels ProofFindPkR ProofDefined.
Import ListNotations.
Local Open Scope R_scope.

(** ** The table of the linear spectrum *)
Definition osum (x : R + R) : option R + option R := match x with inl a => inl (Some a) | inr a => inr (Some a) end.
Lemma loop_brk_lift {A B X Y} (L : A -> B) (M : A + X -> B + Y) n : (forall a, M (inl a) = inl (L a)) -> (forall x, exists y, M (inr x) = inr y) ->
  forall i (f : Z -> A -> res (A + X)) (g : Z -> B -> res (B + Y)) s,
  (forall j s, (i <= j < i + Z.of_nat n)%Z -> g j (L s) = res_map M (f j s)) -> loop_brk n i g (L s) = res_map M (loop_brk n i f s).
Proof.
  intros M1 M2. induction n as [|n IH]; intros i f g s H; [cbn; rewrite M1; reflexivity|]. cbn [loop_brk].
  apply (bind_lift M); [apply H; lia|]. intros [a|x] _; [rewrite M1; apply IH; intros; apply H; lia|].
  destruct (M2 x) as [y E]. rewrite E. cbn. rewrite E. reflexivity.
Qed.
Lemma dicho_O fuel x tab : forall mn mx, dicho (N := ONum) fuel (Some x) (os tab) mn mx = dicho (N := RNum) fuel x tab mn mx.
Proof.
  induction fuel as [|f IH]; intros mn mx; [reflexivity|]. cbn [dicho]. destruct (mn =? u64 (mx - 1))%Z; [reflexivity|].
  rewrite rd_os, bind_map. apply bind_congr. intros t _. on. destruct (Rltb x t); [apply IH|]. destruct (Rltb t x); [apply IH|reflexivity].
Qed.
Lemma interpol_lin_O x a b u v : a <> b -> interpol_lin (N := ONum) (Some x) (Some a) (Some b) (Some u) (Some v) = Some (interpol_lin (N := RNum) x a b u v).
Proof. intros H. unfold interpol_lin. ov ltac:(lra). reflexivity. Qed.
Definition oscan (s : Z * R * list R * list R) : Z * option R * list (option R) * list (option R) :=
  let '(i, d, c, e) := s in (i, Some d, os c, os e).
Definition opair (s : list R * list R) : list (option R) * list (option R) := (os (fst s), os (snd s)).
Lemma ip_scan_O x tabx taby nx diff c d : ip_scan (N := ONum) (Some x) (os tabx) (os taby) nx (Some diff) (os c) (os d)
  = res_map oscan (ip_scan (N := RNum) x tabx taby nx diff c d).
Proof.
  unfold ip_scan. apply (for_lift0 oscan); [reflexivity|]. intros ix [[[i e] c'] d'] _. cbn [oscan].
  apply (bind_lift Some); [apply rd_os|]. intros tx _. on.
  assert (E : (if Rltb (Rabs (x - tx)) e then (ix, Some (Rabs (x - tx))) else (i, Some e)) =
    (let '(a, b) := if Rltb (Rabs (x - tx)) e then (ix, Rabs (x - tx)) else (i, e) in (a, Some b))) by (destruct (Rltb _ _); reflexivity).
  match goal with |- context [match ?t with (_, _) => _ end] => change t with (if Rltb (Rabs (x - tx)) e then (ix, Some (Rabs (x - tx))) else (i, Some e)) end.
  rewrite E. destruct (if Rltb (Rabs (x - tx)) e then (ix, Rabs (x - tx)) else (i, e)) as [i1 e1].
  apply (bind_lift Some); [apply rd_os|]. intros ty _. apply (bind_lift os); [apply wr_os|]. intros c1 _.
  apply (bind_lift os); [apply wr_os|]. intros d1 _. reflexivity.
Qed.
Lemma ip_column_O x tabx nx jx c d : increasing tabx -> (1 <= jx)%Z ->
  ip_column (N := ONum) (Some x) (os tabx) nx jx (os c) (os d) = res_map opair (ip_column (N := RNum) x tabx nx jx c d).
Proof.
  intros HI Hj. unfold ip_column. apply (for_lift0 opair); [reflexivity|]. intros ix [c' d'] Hix. cbn [opair fst snd].
  apply (bind_lift Some); [apply rd_os|]. intros c1 _. apply (bind_lift Some); [apply rd_os|]. intros d0 _.
  apply (bind_lift Some); [apply rd_os|]. intros x0 E0. apply (bind_lift Some); [apply rd_os|]. intros xj Ej.
  apply (rd_inv 0) in E0. apply (rd_inv 0) in Ej. destruct E0 as [B0 ->], Ej as [Bj ->].
  pose proof (inc_znth tabx HI ix (ix + jx) ltac:(lia) ltac:(lia)) as Hlt. on.
  rewrite !(odiv_some (c1 - d0)) by lra. on.
  apply (bind_lift os); [apply wr_os|]. intros c2 _. apply (bind_lift os); [apply wr_os|]. intros d2 _. reflexivity.
Qed.
Definition onev (s : Z * list R * list R * R) : Z * list (option R) * list (option R) * option R :=
  let '(i, c, d, y) := s in (i, os c, os d, Some y).
Lemma interpol_poly_O x tabx taby nx : increasing tabx ->
  interpol_poly (N := ONum) (Some x) (os tabx) (os taby) nx = res_map Some (interpol_poly (N := RNum) x tabx taby nx).
Proof.
  intros HI. unfold interpol_poly. rewrite !repeat_os. apply (bind_lift Some); [apply rd_os|]. intros t0 _. on.
  apply (bind_lift oscan); [apply ip_scan_O|]. intros [[[i e] c] d] _. cbn [oscan].
  apply (bind_lift Some); [apply rd_os|]. intros y _.
  apply (bind_lift onev).
  - apply (for_lift0 onev); [reflexivity|]. intros jx [[[i1 c1] d1] y1] Hj. cbn [onev].
    apply (bind_lift opair); [apply ip_column_O; [exact HI|lia]|]. intros [c2 d2] _. cbn [opair fst snd].
    destruct (_ <? _)%Z; (apply (bind_lift Some); [apply rd_os|]; intros dy _; reflexivity).
  - intros [[[i1 c1] d1] y1] _. reflexivity.
Qed.

Lemma nth_skip (l : list R) : forall n i d, nth i (skipn n l) d = nth (n + i) l d.
Proof. induction l as [|a l IH]; intros [|n] i d; cbn; try reflexivity; [destruct i; reflexivity|apply IH]. Qed.
Lemma inc_skipn n K : increasing K -> increasing (skipn n K).
Proof.
  intros H i j Hij. unfold at_ in *. rewrite skipn_length in Hij. rewrite !nth_skip. apply H. lia.
Qed.
Lemma zmin_mn a b : zmin a b = Z.min a b.
Proof. unfold zmin. destruct (Z.ltb_spec a b); lia. Qed.
Lemma zmax_mx a b : zmax a b = Z.max a b.
Proof. unfold zmax. destruct (Z.gtb_spec a b); lia. Qed.
Section Table.
Variables (K P : list R).
Hypothesis HL : length P = length K.
Hypothesis HN : (3 <= zlen K < 2 ^ 62)%Z.
Hypothesis HI : increasing K.
Hypothesis HK : forall x, In x K -> 0 < x.
Let tb := mk_table (N := RNum) K P.
Let nk := zlen K.
Lemma rdK_pos i x : rd K i = Ok x -> 0 < x.
Proof. intros E. apply (rd_inv 0) in E. destruct E as [H ->]. apply HK, znth_In, H. Qed.
Lemma sum_slopes_O start en : (1 <= start)%Z -> (en < 2 ^ 62)%Z -> sum_slopes (N := ONum) (opk tb) start en = res_map osum (sum_slopes (N := RNum) tb start en).
Proof.
  intros Hs He. unfold sum_slopes, for_brk. cbn [opk pk_p pk_k tb mk_table].
  match goal with |- loop_brk ?n ?i _ _ = _ => apply (loop_brk_lift (Some : R -> option R) osum n) with (s := nZ RNum 0) end; [reflexivity|intros x; exists (Some x); reflexivity|].
  intros j s Hj. apply (bind_lift Some); [apply rd_os|]. intros pu _. apply (bind_lift Some); [apply rd_os|]. intros pl _. on.
  destruct (Rleb_spec pu 0) as [|Pu]; [reflexivity|]. destruct (Rleb_spec pl 0) as [|Pl]; [reflexivity|]. cbn [orb].
  apply (bind_lift Some); [apply rd_os|]. intros ku Eu. apply (bind_lift Some); [apply rd_os|]. intros kl El.
  pose proof (rdK_pos _ _ Eu) as Hu. pose proof (rdK_pos _ _ El) as Hl.
  assert (Hul : kl < ku).
  { apply (rd_inv 0) in Eu. apply (rd_inv 0) in El. destruct Eu as [Bu ->], El as [Bl ->].
    rewrite (u64_small (j - 1)) by (unfold SIZE_T; lia). apply inc_znth; [exact HI|lia|lia]. }
  assert (Hr : 1 < ku / kl) by (apply (Rmult_lt_reg_r kl); [exact Hl|]; unfold Rdiv; rewrite Rmult_assoc, Rinv_l, Rmult_1_l, Rmult_1_r by lra; exact Hul).
  assert (Hln : 0 < ln (ku / kl)) by (rewrite <- ln_1; apply ln_increasing; lra).
  assert (Hp : 0 < pu / pl) by (apply Rdiv_lt_0_compat; lra).
  ov ltac:(first [exact Hp|lra]). reflexivity.
Qed.
Lemma extrapol_O start en at0 k : (1 <= start < en)%Z -> (en < 2 ^ 62)%Z -> 0 < k ->
  (o <- sum_slopes (N := ONum) (opk tb) start en ;;
   match o with
   | inr r => Ok r
   | inl s => p <- rd (pk_p (opk tb)) at0 ;; k0 <- rd (pk_k (opk tb)) at0 ;;
     Ok (nmul ONum p (npow (n := ONum) (ndiv ONum (Some k) k0) (ndiv ONum s (nZ ONum (u64 (en - start))))))
   end)
  = res_map Some (o <- sum_slopes (N := RNum) tb start en ;;
   match o with
   | inr r => Ok r
   | inl s => p <- rd (pk_p tb) at0 ;; k0 <- rd (pk_k tb) at0 ;;
     Ok (nmul RNum p (npow (n := RNum) (ndiv RNum k k0) (ndiv RNum s (nZ RNum (u64 (en - start))))))
   end).
Proof.
  intros H1 H2 Hk. apply (bind_lift osum); [apply sum_slopes_O; lia|]. intros [s|r] _; [|reflexivity]. cbn [osum].
  apply (bind_lift Some); [apply rd_os|]. intros p _. apply (bind_lift Some); [apply rd_os|]. intros k0 E0.
  apply rdK_pos in E0. rewrite (u64_small (en - start)) by (unfold SIZE_T; lia).
  assert (D : IZR (en - start) <> 0) by (apply not_0_IZR; lia).
  ov ltac:(first [exact D|lra]). rewrite opow_pos by (apply Rdiv_lt_0_compat; lra). reflexivity.
Qed.
Lemma en_low : u64 (zmin 15 (pk_n tb - 1)) = Z.min 15 (nk - 1).
Proof. unfold tb, mk_table, nk; cbn [pk_n]. change (T RNum) with R. rewrite zmin_mn. apply u64_small. unfold SIZE_T. lia. Qed.
Lemma en_high : u64 (pk_n tb - 1) = (nk - 1)%Z.
Proof. unfold tb, mk_table, nk; cbn [pk_n]. change (T RNum) with R. apply u64_small. unfold SIZE_T. lia. Qed.
Lemma lowk_O k : 0 < k -> extrapol_pk_lowk (N := ONum) (opk tb) (Some k) = res_map Some (extrapol_pk_lowk (N := RNum) tb k).
Proof.
  intros Hk. unfold extrapol_pk_lowk. change (pk_n (opk tb)) with (pk_n tb). cbv zeta. rewrite en_low.
  apply extrapol_O; fold nk in HN; lia || lra.
Qed.
Lemma highk_O k : 0 < k -> extrapol_pk_highk (N := ONum) (opk tb) (Some k) = res_map Some (extrapol_pk_highk (N := RNum) tb k).
Proof.
  intros Hk. unfold extrapol_pk_highk. change (pk_n (opk tb)) with (pk_n tb). cbv zeta. rewrite en_high, zmax_mx.
  apply extrapol_O; fold nk in HN; lia || lra.
Qed.
Definition ofst (x : R * Z) : option R * Z := (Some (fst x), snd x).
Lemma find_pk_step_O im en a b start k : 0 < k ->
  find_pk_step (N := ONum) (opk tb) im en (Some a) (Some b) start (Some k) = res_map ofst (find_pk_step (N := RNum) tb im en a b start k).
Proof.
  intros Hk. unfold find_pk_step. on. destruct (Rltb b k); [apply (bind_lift Some); [apply highk_O, Hk|reflexivity]|].
  destruct (Rltb k a); [apply (bind_lift Some); [apply lowk_O, Hk|reflexivity]|].
  unfold get_dichotomy_index. cbn [opk pk_k pk_p]. rewrite dicho_O. apply bind_same_lift. intros ind _. destruct im.
  - rewrite !skipn_os. apply (bind_lift Some); [apply interpol_poly_O, inc_skipn, HI|]. reflexivity.
  - apply (bind_lift Some); [apply rd_os|]. intros k0 E0. apply (bind_lift Some); [apply rd_os|]. intros k1 E1.
    apply (bind_lift Some); [apply rd_os|]. intros p0 _. apply (bind_lift Some); [apply rd_os|]. intros p1 _. cbn [res_map]. unfold ofst. cbn [fst snd].
    rewrite interpol_lin_O; [reflexivity|]. apply (rd_inv 0) in E0. apply (rd_inv 0) in E1. destruct E0 as [B0 ->], E1 as [B1 ->].
    apply Rlt_not_eq, inc_znth; [exact HI|unfold tb in *; cbn [pk_k mk_table] in *; change (T RNum) with R in *; lia|unfold tb in *; cbn [pk_k mk_table] in *; change (T RNum) with R in *; lia].
Qed.
Lemma find_pk_loop_O im en a b ks : (forall k, In k ks -> 0 < k) -> forall start,
  find_pk_loop (N := ONum) (opk tb) im en (Some a) (Some b) start (os ks) = res_map os (find_pk_loop (N := RNum) tb im en a b start ks).
Proof.
  induction ks as [|k ks IH]; intros Hks start; [reflexivity|]. cbn [find_pk_loop os map].
  apply (bind_lift ofst); [apply find_pk_step_O, Hks; left; reflexivity|]. intros [p st] _. unfold ofst; cbn [fst snd].
  apply (bind_lift os); [apply IH; intros; apply Hks; right; assumption|]. intros ps _. reflexivity.
Qed.
Theorem find_pk_O ks im : (forall k, In k ks -> 0 < k) -> find_pk (N := ONum) (opk tb) (os ks) im = res_map os (find_pk (N := RNum) tb ks im).
Proof.
  intros Hks. unfold find_pk. change (pk_n (opk tb)) with (pk_n tb).
  apply (bind_lift Some); [apply rd_os|]. intros a _. apply (bind_lift Some); [apply rd_os|]. intros b _. apply find_pk_loop_O, Hks.
Qed.
Definition osig (x : Z * R * option R) : Z * option R * option (option R) := let '(i, a, o) := x in (i, Some a, option_map Some o).
Lemma sigma_den : 12 * PI * PI <> 0.
Proof. pose proof PI_RGT_0 as H. assert (0 < 12 * PI) by lra. pose proof (Rmult_lt_0_compat (12 * PI) PI). lra. Qed.
Lemma sig_inner_O n kmax : forall i acc, (0 <= i)%Z -> sig_inner (N := ONum) n (opk tb) (Some kmax) i (Some acc) = res_map osig (sig_inner (N := RNum) n tb kmax i acc).
Proof.
  induction n as [|n IH]; intros i acc Hi; [reflexivity|]. cbn [sig_inner opk pk_k pk_p].
  apply (bind_lift Some); [apply rd_os|]. intros k1 E1. apply (bind_lift Some); [apply rd_os|]. intros k0 E0.
  apply (bind_lift Some); [apply rd_os|]. intros p0 _. apply (bind_lift Some); [apply rd_os|]. intros p1 _.
  assert (L : k0 < k1).
  { apply (rd_inv 0) in E0. apply (rd_inv 0) in E1. destruct E0 as [B0 ->], E1 as [B1 ->]. apply inc_znth; [exact HI|unfold tb in *; cbn [pk_k mk_table] in *; change (T RNum) with R in *; lia|unfold tb in *; cbn [pk_k mk_table] in *; change (T RNum) with R in *; lia]. }
  rewrite interpol_lin_O by lra. on. pose proof sigma_den. destruct (Rltb kmax k1).
  - rewrite odiv_some by assumption. reflexivity.
  - apply IH. lia.
Qed.
Lemma sig_inner_idx n kmax : forall i acc i' a o, (0 <= i)%Z -> sig_inner (N := RNum) n tb kmax i acc = Ok (i', a, o) -> (0 <= i')%Z.
Proof.
  induction n as [|n IH]; intros i acc i' a o Hi E; cbn [sig_inner] in E; [injection E as <- _ _; exact Hi|].
  do 4 (match type of E with bind ?x _ = _ => destruct x; [|discriminate] end; cbn [bind] in E).
  destruct (nlt RNum _ _); [injection E as <- _ _; exact Hi|]. eapply IH, E. lia.
Qed.
Lemma sig_loop_O uv ks : forall i acc, (0 <= i)%Z -> sig_loop (N := ONum) (opk tb) (Some uv) i (Some acc) (os ks) = res_map os (sig_loop (N := RNum) tb uv i acc ks).
Proof.
  induction ks as [|k ks IH]; intros i acc Hi; [reflexivity|]. cbn [sig_loop os map]. change (pk_n (opk tb)) with (pk_n tb).
  apply (bind_lift Some); [apply rd_os|]. intros kf _. on. destruct (Rltb (k * uv) kf).
  - apply (bind_lift os); [apply IH, Hi|]. reflexivity.
  - apply (bind_lift osig); [apply sig_inner_O, Hi|]. intros [[i1 a1] o] E1. cbn [osig].
    apply (bind_lift os); [apply IH; eapply sig_inner_idx, E1; exact Hi|]. intros r _. pose proof sigma_den.
    destruct o; cbn; [reflexivity|]. destruct (Req_EM_T _ _) as [Q|]; [contradiction|reflexivity].
Qed.
Theorem calc_running_sigmad2_O ks uv : calc_running_sigmad2 (N := ONum) (opk tb) (os ks) (Some uv) = res_map os (calc_running_sigmad2 (N := RNum) tb ks uv).
Proof. unfold calc_running_sigmad2. on. apply sig_loop_O. lia. Qed.
End Table.
