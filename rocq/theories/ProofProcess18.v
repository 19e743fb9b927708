(** ProofProcess18: the library computes a 1-loop spectrum by itself (run_spectrum_1loop), in arrays it allocates and frees. *)
From Coq Require Import ZArith List String Bool Lia PeanoNat.
From Verif Require Import Base Num Common Kernels Integrals Registry PyTerms Threads SpecThreads Process SpecProcess ProofThreads2 ProofThreads3 ProofScratch3 ProofProcess ProofProcess2 ProofProcess3 ProofProcess4 ProofProcess5 ProofProcess6 ProofProcess7 ProofProcess8 ProofProcess9 ProofProcess10 ProofProcess11 ProofProcess12.
Import ListNotations.
Local Open Scope string_scope.
Local Open Scope nat_scope.

Section Lib.
Context {N : Num}.
Notation T := (T N).
Notation state := (state N).
Implicit Types (s : state) (o l : nat).
Variables (fuel : nat) (suave1 : (list T -> res T) -> res T) (suave12 : (list T -> res (list T)) -> res (list T)).

Lemma alive_lt s b : alive s b = true -> b < List.length (blocks s).
Proof. unfold alive. destruct (nth_error (blocks s) b) as [[w xs]|] eqn:E; [intros _; apply nth_error_Some; congruence|discriminate]. Qed.
Lemma more_nth s s' more b : blocks s' = (blocks s ++ more)%list -> b < List.length (blocks s) -> nth_error (blocks s') b = nth_error (blocks s) b.
Proof. intros -> H. apply nth_error_app1, H. Qed.
Lemma reads_same s s' p xs : held s' = held s -> (forall b, In b (buf_of p) -> nth_error (blocks s') b = nth_error (blocks s) b) -> reads s p xs -> reads s' p xs.
Proof.
  intros Hh Hb (b & o & -> & A & R). specialize (Hb b ltac:(left; reflexivity)). exists b, o. split; [reflexivity|]. split.
  - unfold alive in *. rewrite Hb, Hh. exact A.
  - intros i Hi. unfold contents. rewrite Hb. apply R, Hi.
Qed.
Lemma reads_lt s p xs b : reads s p xs -> In b (buf_of p) -> b < List.length (blocks s).
Proof. intros (b' & o & -> & A & _) [<-|[]]. apply alive_lt, A. Qed.
Lemma reads_more s s' more p xs : blocks s' = (blocks s ++ more)%list -> held s' = held s -> reads s p xs -> reads s' p xs.
Proof. intros B H R. apply (reads_same s s' p xs H); [|exact R]. intros b Hb. apply (more_nth s s' more); [exact B|]. exact (reads_lt _ _ _ _ R Hb). Qed.
Lemma callocs_ok n (l : list unit) : forall s, each_ (fun _ => c_calloc n) l s =
  Fine (with_blocks s (blocks s ++ map (fun _ => (Calloc, repeat (nZ N 0) (Z.to_nat n))) l)%list) (map (fun j => Some (List.length (blocks s) + j, 0%Z)) (seq 0 (List.length l))).
Proof.
  induction l as [|u l IH]; intros s; cbn [each_ map List.length seq].
  - unfold ret. rewrite app_nil_r. destruct s; reflexivity.
  - unfold mbind at 1. unfold c_calloc, new_block, mbind at 1. unfold ret at 1. cbv beta iota. unfold mbind. fold (@c_calloc N n). change (each_ (fun _ => _) l _) with (each_ (fun _ : unit => c_calloc n) l (with_blocks s (blocks s ++ [(Calloc, repeat (nZ N 0) (Z.to_nat n))])%list)). rewrite IH. unfold ret. f_equal.
    + cbn. rewrite <- app_assoc. reflexivity.
    + rewrite Nat.add_0_r. f_equal. rewrite <- seq_shift, map_map. apply map_ext. intros j. cbn. rewrite app_length. cbn. f_equal. f_equal. lia.
Qed.
Lemma frees_ok (l : list nat) : forall s, NoDup l -> (forall b, In b l -> exists xs, nth_error (blocks s) b = Some (Calloc, xs)) ->
  exists s', do_all (fun b => @c_free N (Some (b, 0%Z))) l s = Fine s' tt /\ s' = with_blocks s (blocks s') /\ List.length (blocks s') = List.length (blocks s) /\
    (forall b, ~ In b l -> nth_error (blocks s') b = nth_error (blocks s) b) /\ forall b, In b l -> exists xs, nth_error (blocks s') b = Some (Freed, xs).
Proof.
  induction l as [|b l IH]; intros s D H.
  - exists s. rewrite do_all_nil. split; [reflexivity|]. split; [destruct s; reflexivity|]. split; [reflexivity|]. split; [auto|]. intros b [].
  - inversion D; subst. destruct (H b (or_introl eq_refl)) as (xs & E). set (s1 := with_blocks s (upd (blocks s) b (Freed, xs))).
    assert (E1 : c_free (Some (b, 0%Z)) s = Fine s1 tt) by (unfold c_free; rewrite E; reflexivity). rewrite (do_all_cons (fun b => @c_free N (Some (b, 0%Z))) b l s s1 E1).
    destruct (IH s1 H3) as (s' & E' & Q & L & O & Fr).
    { intros b' Hb'. destruct (H b' (or_intror Hb')) as (ys & E2). exists ys. cbn. rewrite nth_error_upd. destruct (Nat.eqb_spec b b') as [->|]; [contradiction|exact E2]. }
    exists s'. split; [exact E'|]. split; [rewrite Q; reflexivity|]. split; [rewrite L; cbn; apply upd_length|]. split.
    + intros b' Hn. rewrite O by (intros X; apply Hn; right; exact X). cbn. rewrite nth_error_upd. destruct (Nat.eqb_spec b b') as [->|]; [exfalso; apply Hn; left; reflexivity|reflexivity].
    + intros b' [<-|Hb']; [|apply Fr, Hb']. exists xs. rewrite O by assumption. cbn. rewrite nth_error_upd, Nat.eqb_refl, E. reflexivity.
Qed.
(** Writing one value after the other *)
Lemma do_all_stores {A} (f : A -> M N unit) ct (names : list string) size (ls : A -> loc * T) (J : state -> Prop) (l : list A) : forall s, target s ct names size -> J s ->
  (forall s' x, J s' -> In x l -> f x s' = c_store ct (ls x) s') -> (forall x, In x l -> in_size names size (fst (ls x))) -> (forall s' s'', J s' -> rewritten (out_of ct names) s' s'' -> J s'') ->
  do_all f l s = do_all (c_store ct) (map ls l) s.
Proof.
  induction l as [|x l IH]; intros s Tg Js Hf Hs Hr; [reflexivity|]. cbn [map].
  destruct (ls x) as [c v] eqn:Ex. destruct (store_ok s ct names size c v Tg) as (s1 & E1 & R1 & _). { specialize (Hs x (or_introl eq_refl)). rewrite Ex in Hs. exact Hs. }
  rewrite (do_all_cons _ _ _ _ _ E1). rewrite (do_all_cons f x l s s1). 2: { rewrite (Hf s x Js (or_introl eq_refl)), Ex. exact E1. }
  apply IH; auto.
  - exact (target_rw _ _ _ _ _ _ R1 Tg).
  - exact (Hr _ _ Js R1).
  - intros; apply Hf; auto. right; assumption.
  - intros y Hy. apply Hs. right; exact Hy.
Qed.
Lemma view_read s ct y i v : view s ct (Arr y i) = Some v -> (forall b (o : Z), ct_ptr ct y = Some (b, o) -> alive s b = true) -> c_read (ct_ptr ct y) i s = Fine s v.
Proof.
  intros V A. cbn in V. unfold at_ptr in V. destruct (ct_ptr ct y) as [[b o]|] eqn:E; [|discriminate]. specialize (A _ _ eq_refl). destruct (Z.leb_spec 0 (o + i)) as [H|]; [|discriminate].
  unfold c_read, place. rewrite (bind_Fine _ _ s s (b, o)) by reflexivity. cbv beta iota. rewrite (bind_Fine _ _ _ _ _ (alive_block _ _ A)). unfold c_lift. rewrite (rd_nth (contents s b) (o + i)).
  - apply (nth_error_nth _ _ (nZ N 0)) in V. rewrite V. reflexivity.
  - assert (Z.to_nat (o + i) < List.length (contents s b)) by (apply nth_error_Some; congruence). unfold zlen. lia.
Qed.
Lemma holds_view s ct y n xs i : holds s ct (column y n) xs -> (0 <= i < n)%Z -> view s ct (Arr y i) = Some (nth (Z.to_nat i) xs (nZ N 0)).
Proof.
  intros H Hi. unfold holds in H. assert (E : nth_error (map (view s ct) (column y n)) (Z.to_nat i) = nth_error (map Some xs) (Z.to_nat i)) by (rewrite H; reflexivity).
  unfold column in E. rewrite map_map in E. rewrite nth_error_map in E. unfold indices in E. rewrite nth_error_map in E.
  rewrite (nth_error_nth' (seq 0 (Z.to_nat n)) 0) in E by (rewrite seq_length; lia). cbn [option_map] in E. rewrite seq_nth in E by lia. cbn [Nat.add] in E. rewrite Z2Nat.id in E by lia.
  rewrite nth_error_map in E. destruct (nth_error xs (Z.to_nat i)) as [x|] eqn:Ex; cbn in E; [|discriminate]. injection E as E. rewrite (nth_error_nth _ _ _ Ex). exact E.
Qed.
Record lib_ready s (K P ks : list T) (kp : ptr) (bp : nat) (xs : list T) : Prop := {
  lr_n : cp_n (g_lin s) = zlen K; lr_len : List.length P = List.length K; lr_k : reads s (cp_k (g_lin s)) K; lr_p : reads s (cp_p (g_lin s)) P;
  lr_1 : g_1loop s = mkCpk (zlen ks) kp (Some (bp, 0%Z)); lr_ks : reads s kp ks; lr_b : nth_error (blocks s) bp = Some (Calloc, xs); lr_xs : List.length xs = List.length ks;
  lr_apart : ~ In bp (buf_of kp ++ buf_of (cp_k (g_lin s)) ++ buf_of (cp_p (g_lin s)))%list }.
Lemma nth_error_ext {A} : forall l m : list A, (forall i, nth_error l i = nth_error m i) -> l = m.
Proof. induction l as [|x l IH]; intros [|y m] H; [reflexivity|discriminate (H 0)|discriminate (H 0)|]. f_equal; [injection (H 0) as E; exact E|]. apply IH. intros i. exact (H (S i)). Qed.
Lemma contents_at s b w xs : nth_error (blocks s) b = Some (w, xs) -> contents s b = xs. Proof. unfold contents. intros ->. reflexivity. Qed.
Lemma view_list s ct y n (f : Z -> T) : (0 <= n)%Z -> forall b, ct_ptr ct y = Some (b, 0%Z) -> zlen (contents s b) = n -> (forall i, (0 <= i < n)%Z -> view s ct (Arr y i) = Some (f i)) -> contents s b = map f (indices n).
Proof.
  intros Hn b E L H. apply nth_error_ext. intros i. destruct (le_lt_dec (Z.to_nat n) i) as [Hi|Hi].
  - rewrite !(proj2 (nth_error_None _ _)); [reflexivity| |]; [rewrite map_length; unfold indices; rewrite map_length, seq_length; exact Hi|unfold zlen in L; lia].
  - specialize (H (Z.of_nat i) ltac:(lia)). cbn in H. rewrite E in H. unfold at_ptr in H. rewrite Z.add_0_l, (proj2 (Z.leb_le _ _)), Nat2Z.id in H by lia. rewrite H. unfold indices. rewrite nth_error_map, nth_error_map, (nth_error_nth' (seq 0 (Z.to_nat n)) 0) by (rewrite seq_length; lia).
    cbn [option_map]. rewrite seq_nth by lia. reflexivity.
Qed.
Notation zeros n := (repeat (nZ N 0) (Z.to_nat n)).
Notation five := ["pk_lin"; "sigmad2"; "gamma1a_1loop"; "gamma1b_1loop"; "pk_gamma2_tree_tree"].
Lemma run_spectrum_1loop_ok s K P ks kp bp xs a b ps ss vals : lib_ready s K P ks kp bp xs -> ks <> [] -> (zlen ks < SIZE_T)%Z ->
  computes fuel (g_conf s) suave1 suave12 (D_1loop (set_flag a) (set_flag b)) (mk_table K P) (mk_table K P) (mk_table K P) ks ps ss vals ->
  let nb := List.length (blocks s) in
  exists s' f, c_run_spectrum_1loop fuel suave1 suave12 a b s = Fine s' tt /\
    s' = with_terms (with_blocks s (blocks s')) (fun sl => if slot_eqb S_1loop sl then mkCterms (zlen ks) f else g_terms s sl) /\
    f "k" = kp /\ (forall y, In y five -> exists j, f y = Some (nb + j, 0%Z) /\ j < 5) /\
    List.length (blocks s') = nb + 5 /\ (forall c, c < nb -> c <> bp -> nth_error (blocks s') c = nth_error (blocks s) c) /\
    nth_error (blocks s') bp = Some (Calloc, lib_spectrum ks ps ss vals) /\ forall c, nb <= c < nb + 5 -> exists ys, nth_error (blocks s') c = Some (Freed, ys).
Proof.
  intros R Hne Hsz C nb. destruct R as [Ln Ll Lk Lp L1 Lks Lb Lxs Lap].
  assert (Bl : bp < nb) by (apply nth_error_Some; congruence).
  unfold c_run_spectrum_1loop. unfold get. unfold mbind at 1. rewrite L1. cbn [cp_n cp_k]. rewrite (bind_Fine _ _ _ _ _ (callocs_ok (zlen ks) [tt; tt; tt; tt; tt] s)).
  cbn [map List.length seq]. fold nb. set (bs := (blocks s ++ _)%list). set (s1 := with_blocks s bs).
  set (fp := fun x => match assoc (combine (c_fields S_1loop) [kp; Some (nb + 0, 0%Z); Some (nb + 1, 0%Z); Some (nb + 2, 0%Z); Some (nb + 3, 0%Z); Some (nb + 4, 0%Z)]) x with Some p => p | None => None end).
  set (ct := mkCterms (zlen ks) fp).
  set (s2 := with_terms s1 (fun sl => if slot_eqb S_1loop sl then ct else g_terms s sl)).
  assert (H2 : held s2 = held s) by (apply held_ext; reflexivity). assert (B2 : blocks s2 = (blocks s ++ map (fun _ => (Calloc, zeros (zlen ks))) [tt; tt; tt; tt; tt])%list) by reflexivity.
  assert (Lb2 : List.length (blocks s2) = nb + 5) by (rewrite B2, app_length; reflexivity).
  assert (At : forall j, j < 5 -> nth_error (blocks s2) (nb + j) = Some (Calloc, zeros (zlen ks))).
  { intros j Hj. rewrite B2, nth_error_app2 by lia. replace (nb + j - List.length (blocks s)) with j by (unfold nb; lia). destruct j as [|[|[|[|[|]]]]]; try reflexivity; lia. }
  assert (E2 : c_set_terms S_1loop (zlen ks) [kp; Some (nb + 0, 0%Z); Some (nb + 1, 0%Z); Some (nb + 2, 0%Z); Some (nb + 3, 0%Z); Some (nb + 4, 0%Z)] s1 = Fine s2 tt).
  { unfold c_set_terms. unfold modify at 1, mbind at 1. change (with_terms s1 _) with s2. replace (match assoc _ "k" with Some p => p | None => None end) with kp by reflexivity.
    apply print_ok; [exact (reads_more s s2 _ kp ks B2 H2 Lks)|]. split; [exact Hsz|intros _; exact Hne]. }
  rewrite (bind_Fine _ _ _ _ _ E2).
  assert (Five : forall y, In y five -> exists j, fp y = Some (nb + j, 0%Z) /\ j < 5).
  { intros y Hy. cbn in Hy. destruct Hy as [<-|[<-|[<-|[<-|[<-|[]]]]]]; [exists 0|exists 1|exists 2|exists 3|exists 4]; (split; [reflexivity|lia]). }
  assert (Out : forall c, out_of ct five c -> nb <= c < nb + 5).
  { intros c (y & o & Hy & E). destruct (Five y Hy) as (j & Ej & Hj). change (fp y = Some (c, o)) in E. rewrite Ej in E. injection E as <- _. lia. }
  assert (Tg : target s2 ct five (size_of (zlen ks))).
  { constructor.
    - intros y Hy. destruct (Five y Hy) as (j & Ej & Hj). exists (nb + j), 0%Z. split; [exact Ej|]. split; [lia|]. split; [unfold alive; rewrite (At j Hj); reflexivity|].
      rewrite (contents_at _ _ _ _ (At j Hj)). unfold zlen at 2. rewrite repeat_length. unfold size_of. assert (comp_of y = 1%Z) by (cbn in Hy; destruct Hy as [<-|[<-|[<-|[<-|[<-|[]]]]]]; reflexivity). unfold zlen. lia.
    - intros y z c o c' o' Hy Hz Nyz E E' Ec. change (fp y = Some (c, o)) in E. change (fp z = Some (c', o')) in E'. cbn in Hy, Hz.
      destruct Hy as [<-|[<-|[<-|[<-|[<-|[]]]]]]; destruct Hz as [<-|[<-|[<-|[<-|[<-|[]]]]]]; try congruence; cbn in E, E'; injection E as E _; injection E' as E' _; lia. }
  assert (G2 : g_terms s2 S_1loop = ct) by reflexivity.
  assert (Ar : armed s2 S_1loop K P ks).
  { constructor; rewrite ?G2.
    - reflexivity.
    - exact (reads_more s s2 _ kp ks B2 H2 Lks).
    - exact Tg.
    - exact Ln.
    - exact Ll.
    - exact (reads_more s s2 _ _ K B2 H2 Lk).
    - exact (reads_more s s2 _ _ P B2 H2 Lp).
    - intros c Hc Hi. apply Out in Hc. rewrite !in_app_iff in Hi. change (ct_ptr ct "k") with kp in Hi.
      assert (c < nb) by (destruct Hi as [Hi|[Hi|Hi]]; [exact (reads_lt _ _ _ _ Lks Hi)|exact (reads_lt _ _ _ _ Lk Hi)|exact (reads_lt _ _ _ _ Lp Hi)]). lia. }
  destruct (run_terms_ok fuel suave1 suave12 s2 (D_1loop (set_flag a) (set_flag b)) K P ks ps ss vals ltac:(discriminate) Ar Hne C) as (s3 & E3 & R3 & V1 & V2 & V3).
  change (slot_of_driver (D_1loop (set_flag a) (set_flag b))) with S_1loop in *. rewrite G2 in R3, V1, V2, V3.
  assert (Q3 : with_conf s3 (latch (g_conf s2) (D_1loop (set_flag a) (set_flag b)) (mk_table K P)) = s3) by (rewrite (rw_eq _ _ _ R3); reflexivity). rewrite Q3 in E3. clear Q3.
  rewrite (bind_Fine _ _ _ _ _ E3). unfold mbind at 1. replace (g_1loop s3) with (mkCpk (zlen ks) kp (Some (bp, 0%Z))) by (rewrite (rw_eq _ _ _ R3); symmetry; exact L1). cbn [cp_p].
  (* the spectrum *)
  set (cto := mkCterms 0 (fun _ => Some (bp, 0%Z))).
  assert (N3 : forall c, c < nb -> nth_error (blocks s3) c = nth_error (blocks s) c).
  { intros c Hc. rewrite (rw_same _ _ _ R3 c) by (intros X; apply Out in X; lia). apply (more_nth s s2 _ _ B2 Hc). }
  assert (H3 : held s3 = held s) by (rewrite (rw_held _ _ _ R3); exact H2).
  assert (G3 : g_terms s3 S_1loop = ct) by (rewrite (rw_terms _ _ _ R3); exact G2).
  assert (Tgo : target s3 cto ["out"] (fun _ => zlen ks)).
  { constructor.
    - intros y _. exists bp, 0%Z. split; [reflexivity|]. split; [lia|]. split; [unfold alive; rewrite (N3 bp Bl), Lb; reflexivity|]. unfold contents. rewrite (N3 bp Bl), Lb. unfold zlen. lia.
    - intros y z c o c' o' [<-|[]] [<-|[]]. congruence. }
  assert (Outo : forall c, out_of cto ["out"] c -> c = bp) by (intros c (y & o & _ & [= <- _]); reflexivity).
  set (row := fun ik => let i := Z.to_nat ik in let v j := nth j (vals ik) (nZ N 0) in c_spectrum_1loop_row (nth i ks (nZ N 0)) (nth i ss (nZ N 0)) (v 0) (v 1) (nth i ps (nZ N 0)) (v 2)).
  set (lsf := fun ik : Z => (Arr "out" ik, row ik)).
  assert (E4 : c_spectrum (Some (bp, 0%Z)) s3 = do_all (c_store cto) (map lsf (indices (zlen ks))) s3).
  { unfold c_spectrum, get. unfold mbind at 1. rewrite G3. change (ct_n ct) with (zlen ks).
    apply (do_all_stores _ cto ["out"] (fun _ => zlen ks) lsf (fun s' => rewritten (out_of cto ["out"]) s3 s') (indices (zlen ks)) s3 Tgo (rw_refl _ _)).
    - intros s' ik J Hik. apply In_indices in Hik.
      assert (Al : forall y, In y five -> forall c (o : Z), ct_ptr ct y = Some (c, o) -> alive s' c = true).
      { intros y Hy c o Ec. rewrite (rw_alive _ _ _ c J), (rw_alive _ _ _ c R3). destruct (Five y Hy) as (j & Ej & Hj). change (fp y = Some (c, o)) in Ec. rewrite Ej in Ec. injection Ec as <- _. unfold alive. rewrite (At j Hj). reflexivity. }
      assert (Vw : forall y i, In y five -> view s' ct (Arr y i) = view s3 ct (Arr y i)).
      { intros y i Hy. apply (view_rw _ _ _ _ _ J). intros y' i' c o [= <- <-] Ec Hc. apply Outo in Hc. subst c. destruct (Five y Hy) as (j & Ej & Hj). change (fp y = Some (bp, o)) in Ec. rewrite Ej in Ec. injection Ec as Ec _. lia. }
      assert (Rd : forall y v, In y five -> view s3 ct (Arr y ik) = Some v -> c_read (ct_ptr ct y) ik s' = Fine s' v) by (intros y v Hy Hv; apply view_read; [rewrite Vw by exact Hy; exact Hv|exact (Al y Hy)]).
      assert (Hr : holds s3 ct (cells_of (D_1loop (set_flag a) (set_flag b)) ik) (vals ik)) by (apply V3; lia).
      assert (Lv : List.length (vals ik) = 3). { apply (f_equal (@List.length _)) in Hr. rewrite !map_length in Hr. cbn in Hr. lia. }
      destruct (vals ik) as [|ga [|gb [|p2 [|]]]] eqn:Ev; try discriminate. unfold holds in Hr. cbn [cells_of map] in Hr. injection Hr as Ha Hb Hc.
      rewrite (bind_Fine _ _ s' s' (nth (Z.to_nat ik) ks (nZ N 0))). 2: { apply (read_ok s' kp ks). 2: lia. apply (reads_same s3 s' kp ks (rw_held _ _ _ J)).
        - intros c Hc0. apply (rw_same _ _ _ J). intros X. apply Outo in X. subst c. apply Lap. rewrite in_app_iff. left. exact Hc0.
        - apply (reads_same s s3 kp ks H3); [|exact Lks]. intros c Hc0. apply N3. exact (reads_lt _ _ _ _ Lks Hc0). }
      rewrite (bind_Fine _ _ _ _ _ (Rd "sigmad2" _ ltac:(cbn; tauto) (holds_view _ _ _ _ _ ik V2 ltac:(lia)))).
      rewrite (bind_Fine _ _ _ _ _ (Rd "gamma1a_1loop" _ ltac:(cbn; tauto) Ha)). rewrite (bind_Fine _ _ _ _ _ (Rd "gamma1b_1loop" _ ltac:(cbn; tauto) Hb)).
      rewrite (bind_Fine _ _ _ _ _ (Rd "pk_lin" _ ltac:(cbn; tauto) (holds_view _ _ _ _ _ ik V1 ltac:(lia)))). rewrite (bind_Fine _ _ _ _ _ (Rd "pk_gamma2_tree_tree" _ ltac:(cbn; tauto) Hc)).
      unfold lsf, row, c_store. cbn [fst snd]. rewrite Ev. reflexivity.
    - intros ik Hik. apply In_indices in Hik. split; [left; reflexivity|lia].
    - intros s' s'' J R. exact (rw_trans _ _ _ _ J R). }
  destruct (stores_ok cto ["out"] (fun _ => zlen ks) (map lsf (indices (zlen ks))) s3 Tgo) as (s4 & E5 & R4 & V4 & _).
  { rewrite map_map. cbn. apply (column_NoDup "out"). }
  { intros x Hx. rewrite map_map in Hx. apply in_map_iff in Hx as (ik & <- & Hik). apply In_indices in Hik. split; [left; reflexivity|cbn; lia]. }
  rewrite (bind_Fine _ _ s3 s4 tt) by (rewrite E4; exact E5). clear E4. unfold mbind at 1.
  assert (Sh4 : forall c w ys, nth_error (blocks s3) c = Some (w, ys) -> exists zs, nth_error (blocks s4) c = Some (w, zs) /\ List.length zs = List.length ys) by exact (rw_shape _ _ _ R4).
  assert (Bp : nth_error (blocks s4) bp = Some (Calloc, lib_spectrum ks ps ss vals)).
  { destruct (Sh4 bp Calloc xs) as (zs & Ez & Lz); [rewrite (N3 bp Bl); exact Lb|]. rewrite Ez. f_equal. f_equal. rewrite <- (contents_at s4 bp Calloc zs Ez).
    apply (view_list s4 cto "out" (zlen ks) row ltac:(unfold zlen; lia) bp eq_refl); [rewrite (contents_at s4 bp Calloc zs Ez); unfold zlen; lia|].
    intros i Hi. apply V4. apply in_map_iff. exists i. split; [reflexivity|]. apply In_indices. lia. }
  assert (G4 : g_terms s4 S_1loop = ct) by (rewrite (rw_terms _ _ _ R4); exact G3). rewrite G4.
  destruct (frees_ok [nb + 0; nb + 1; nb + 2; nb + 3; nb + 4] s4) as (s5 & E6 & Q5 & L5 & O5 & F5).
  { repeat (constructor; [intros X; cbn in X; lia|]). constructor. }
  { assert (Hj : forall j, j < 5 -> exists zs, nth_error (blocks s4) (nb + j) = Some (Calloc, zs)).
    { intros j Hj. destruct (rw_shape _ _ _ R3 _ _ _ (At j Hj)) as (ys & Ey & _). destruct (Sh4 _ _ _ Ey) as (zs & Ez & _). exists zs. exact Ez. }
    intros c Hc. cbn in Hc. destruct Hc as [<-|[<-|[<-|[<-|[<-|[]]]]]]; apply Hj; lia. }
  exists s5, fp. split; [exact E6|]. split; [rewrite Q5, (rw_eq _ _ _ R4), (rw_eq _ _ _ R3); reflexivity|]. split; [reflexivity|]. split; [exact Five|].
  split; [rewrite L5, (rw_none _ _ _ R4), (rw_none _ _ _ R3); exact Lb2|]. split; [|split].
  - intros c Hc Hb. rewrite O5 by (intros X; cbn in X; lia). rewrite (rw_same _ _ _ R4) by (intros X; apply Outo in X; contradiction). apply N3, Hc.
  - rewrite O5 by (intros X; cbn in X; lia). exact Bp.
  - intros c Hc. apply F5. cbn. lia.
Qed.
End Lib.
