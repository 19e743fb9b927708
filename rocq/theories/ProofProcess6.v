(** ProofProcess6: what run_terms of the library does, exactly, when its pointers lead to arrays of the right sizes. *)
From Coq Require Import ZArith List String Bool Lia PeanoNat.
From Verif Require Import Base Num Common Kernels Integrals Registry PyTerms Threads SpecThreads Process SpecProcess ProofThreads2 ProofProcess ProofProcess2 ProofScratch3 ProofThreads3 ProofThreads4.
Import ListNotations.
Local Open Scope string_scope.
Local Open Scope nat_scope.

Section Exact.
Context {N : Num}.
Notation T := (T N).
Notation state := (state N).
Implicit Types (s : state) (ct : cterms).

(** ** Sequencing *)
Lemma bind_Fine {A B} (m : M N A) (f : A -> M N B) s s' a : m s = Fine s' a -> mbind m f s = f a s'.
Proof. unfold mbind. intros ->. reflexivity. Qed.
Lemma each_all {A B} (f : A -> M N B) (g : A -> B) l s : (forall x, In x l -> f x s = Fine s (g x)) -> each_ f l s = Fine s (map g l).
Proof.
  induction l as [|x t IH]; intros H; cbn [each_ map]; [reflexivity|]. rewrite (bind_Fine _ _ _ _ _ (H x (or_introl eq_refl))), (bind_Fine _ _ _ _ _ (IH (fun y Hy => H y (or_intror Hy)))). reflexivity.
Qed.
Lemma do_all_nil {A} (f : A -> M N unit) s : do_all f [] s = Fine s tt.
Proof. reflexivity. Qed.
Lemma do_all_cons {A} (f : A -> M N unit) x l s s' : f x s = Fine s' tt -> do_all f (x :: l) s = do_all f l s'.
Proof.
  intros E. unfold do_all. cbn [each_]. unfold mbind at 1 2. rewrite E. unfold mbind. destruct (each_ f l s'); reflexivity.
Qed.
Lemma do_all_app {A} (f : A -> M N unit) l m s s' : do_all f l s = Fine s' tt -> do_all f (l ++ m) s = do_all f m s'.
Proof.
  revert s. induction l as [|x l IH]; intros s E; [cbn in E; injection E as <-; reflexivity|]. cbn [app].
  destruct (f x s) as [s1 []| | |] eqn:Ex; unfold do_all in E; cbn [each_] in E; unfold mbind at 1 2 in E; rewrite Ex in E; try discriminate.
  rewrite (do_all_cons f x _ s s1 Ex). apply IH. unfold do_all. unfold mbind in *. destruct (each_ f l s1); [cbn in *; exact E|discriminate..].
Qed.

(** ** Memory *)
Definition at_ptr s (p : ptr) (i : Z) : option T := match p with Some (b, o) => if (0 <=? o + i)%Z then nth_error (contents s b) (Z.to_nat (o + i)) else None | None => None end.
Definition view s ct (l : loc) : option T := match l with Arr y i => at_ptr s (ct_ptr ct y) i | _ => None end.
(** Only the elements of some blocks change *)
Record rewritten (touch : nat -> Prop) s s' : Prop := {
  rw_eq : s' = with_blocks s (blocks s');
  rw_shape : forall b w xs, nth_error (blocks s) b = Some (w, xs) -> exists ys, nth_error (blocks s') b = Some (w, ys) /\ List.length ys = List.length xs;
  rw_none : List.length (blocks s') = List.length (blocks s);
  rw_same : forall b, ~ touch b -> nth_error (blocks s') b = nth_error (blocks s) b }.
Lemma rw_refl touch s : rewritten touch s s.
Proof. constructor; eauto. destruct s; reflexivity. Qed.
Lemma rw_trans touch a b c : rewritten touch a b -> rewritten touch b c -> rewritten touch a c.
Proof.
  intros [E1 S1 N1 U1] [E2 S2 N2 U2]. constructor; [|..].
  - rewrite E2, E1. destruct a; reflexivity.
  - intros x w xs H. destruct (S1 _ _ _ H) as (ys & H1 & L1). destruct (S2 _ _ _ H1) as (zs & H2 & L2). exists zs. split; [exact H2|congruence].
  - congruence.
  - intros x H. rewrite U2, U1 by exact H. reflexivity.
Qed.
Lemma rw_weaken (t u : nat -> Prop) s s' : (forall b, t b -> u b) -> rewritten t s s' -> rewritten u s s'.
Proof. intros H []. constructor; auto. Qed.
Lemma closure_ext s s' : objects s' = objects s -> forall n l, closure s' n l = closure s n l.
Proof. intros O. induction n as [|n IH]; intros l; cbn; [reflexivity|]. rewrite IH. f_equal. f_equal. apply flat_map_ext. intros o. unfold links. rewrite O. reflexivity. Qed.
Lemma reachable_ext s s' : objects s' = objects s -> vars s' = vars s -> reachable s' = reachable s.
Proof. intros O V. unfold reachable. rewrite (closure_ext _ _ O), O, V. reflexivity. Qed.
Lemma dict_of_ext s s' o : objects s' = objects s -> dicts s' = dicts s -> dict_of s' o = dict_of s o.
Proof. intros O D. unfold dict_of. rewrite O, D. reflexivity. Qed.
Lemma held_ext s s' : objects s' = objects s -> dicts s' = dicts s -> vars s' = vars s -> temps s' = temps s -> held s' = held s.
Proof. intros O D V X. unfold held. rewrite (reachable_ext _ _ O V), X. f_equal. apply flat_map_ext. intros o. rewrite (dict_of_ext _ _ _ O D). reflexivity. Qed.
Lemma rw_held t s s' : rewritten t s s' -> held s' = held s.
Proof. intros []. rewrite rw_eq0. apply held_ext; reflexivity. Qed.
Lemma rw_alive t s s' b : rewritten t s s' -> alive s' b = alive s b.
Proof.
  intros R. unfold alive. rewrite (rw_held _ _ _ R). destruct (nth_error (blocks s) b) as [[w xs]|] eqn:E.
  - destruct (rw_shape _ _ _ R _ _ _ E) as (ys & -> & _). reflexivity.
  - apply nth_error_None in E. rewrite (proj2 (nth_error_None (blocks s') b)); [reflexivity|]. rewrite (rw_none _ _ _ R). exact E.
Qed.
Lemma rw_length t s s' b : rewritten t s s' -> List.length (contents s' b) = List.length (contents s b).
Proof.
  intros R. unfold contents. destruct (nth_error (blocks s) b) as [[w xs]|] eqn:E.
  - destruct (rw_shape _ _ _ R _ _ _ E) as (ys & -> & L). exact L.
  - apply nth_error_None in E. rewrite (proj2 (nth_error_None (blocks s') b)); [reflexivity|]. rewrite (rw_none _ _ _ R). exact E.
Qed.
Lemma rw_contents t s s' b : rewritten t s s' -> ~ t b -> contents s' b = contents s b.
Proof. intros R H. unfold contents. rewrite (rw_same _ _ _ R b H). reflexivity. Qed.
Lemma alive_block s b : alive s b = true -> block b s = Fine s (contents s b).
Proof. intros A. unfold block. rewrite A. unfold contents. unfold alive in A. destruct (nth_error (blocks s) b) as [[]|]; [reflexivity|discriminate]. Qed.
Lemma put_block_rw s b xs w : nth_error (blocks s) b = Some (w, xs) -> forall ys, List.length ys = List.length xs -> rewritten (fun c => c = b) s (put_block s b ys) /\ contents (put_block s b ys) b = ys.
Proof.
  intros E ys L. unfold put_block. rewrite E. split; [constructor; cbn|].
  - reflexivity.
  - intros c w' zs H. rewrite nth_error_upd, H. destruct (Nat.eqb_spec b c) as [->|]; [|eauto]. exists ys. rewrite E in H. injection H as -> ->. auto.
  - apply upd_length.
  - intros c H. rewrite nth_error_upd. destruct (Nat.eqb_spec b c); [congruence|reflexivity].
  - unfold contents. cbn. rewrite nth_error_upd, Nat.eqb_refl, E. reflexivity.
Qed.

(** ** Reading *)
Definition reads s (p : ptr) (xs : list T) : Prop :=
  exists b o, p = Some (b, o) /\ alive s b = true /\ forall i, (0 <= i < zlen xs)%Z -> rd (contents s b) (o + i) = Ok (nth (Z.to_nat i) xs (nZ N 0)).
Lemma read_ok s p xs i : reads s p xs -> (0 <= i < zlen xs)%Z -> c_read p i s = Fine s (nth (Z.to_nat i) xs (nZ N 0)).
Proof. intros (b & o & -> & A & R) Hi. unfold c_read, place. cbn. unfold mbind, ret. rewrite (alive_block _ _ A). unfold c_lift. rewrite (R i Hi). reflexivity. Qed.
Lemma nth_indices {A} (xs : list A) d : map (fun i => nth (Z.to_nat i) xs d) (indices (zlen xs)) = xs.
Proof.
  unfold indices. rewrite map_map. unfold zlen. rewrite Nat2Z.id. rewrite (map_ext _ (fun i => nth i xs d)) by (intros; rewrite Nat2Z.id; reflexivity).
  clear. induction xs as [|x t IH]; cbn; [reflexivity|]. f_equal. rewrite <- IH at 2. rewrite <- seq_shift, map_map. reflexivity.
Qed.
Lemma read_n_ok s p xs : reads s p xs -> c_read_n p (zlen xs) s = Fine s xs.
Proof.
  intros R. unfold c_read_n. rewrite (each_all _ (fun i => nth (Z.to_nat i) xs (nZ N 0))); [rewrite nth_indices; reflexivity|]. intros i Hi. apply In_indices in Hi. apply read_ok; assumption.
Qed.
Lemma table_ok s c K P : cp_n c = zlen K -> List.length P = List.length K -> reads s (cp_k c) K -> reads s (cp_p c) P -> c_table c s = Fine s (mk_table K P).
Proof.
  intros En L Rk Rp. unfold c_table. pose proof Rk as (b & o & E & _). rewrite E at 1. unfold mbind at 1. cbn [place ret]. rewrite En.
  rewrite (bind_Fine _ _ _ _ _ (read_n_ok _ _ _ Rk)). assert (E' : zlen K = zlen P) by (unfold zlen; congruence). rewrite E' at 1. rewrite (bind_Fine _ _ _ _ _ (read_n_ok _ _ _ Rp)). reflexivity.
Qed.
Lemma reads_rw t s s' p xs : rewritten t s s' -> (forall b, In b (buf_of p) -> ~ t b) -> reads s p xs -> reads s' p xs.
Proof.
  intros R H (b & o & -> & A & X). exists b, o. split; [reflexivity|]. rewrite (rw_alive _ _ _ _ R). split; [exact A|]. rewrite (rw_contents _ _ _ _ R); [exact X|]. apply H. left. reflexivity.
Qed.
Lemma reads_ext s s' p xs : blocks s' = blocks s -> held s' = held s -> reads s p xs -> reads s' p xs.
Proof. intros B H (b & o & E & A & X). exists b, o. split; [exact E|]. unfold alive, contents in *. rewrite B, H. auto. Qed.

(** ** Writing *)
Definition out_of ct (names : list string) (b : nat) : Prop := exists y o, In y names /\ ct_ptr ct y = Some (b, o).
Record target s ct (names : list string) (size : string -> Z) : Prop := {
  tg_ptr : forall y, In y names -> exists b o, ct_ptr ct y = Some (b, o) /\ (0 <= o)%Z /\ alive s b = true /\ (o + size y <= zlen (contents s b))%Z;
  tg_apart : forall y z b o b' o', In y names -> In z names -> y <> z -> ct_ptr ct y = Some (b, o) -> ct_ptr ct z = Some (b', o') -> b <> b' }.
Lemma target_rw t s s' ct names size : rewritten t s s' -> target s ct names size -> target s' ct names size.
Proof.
  intros R [P A]. constructor; [|exact A]. intros y Hy. destruct (P y Hy) as (b & o & E & O & Al & L). exists b, o. rewrite (rw_alive _ _ _ _ R). unfold zlen in *. rewrite (rw_length _ _ _ _ R). auto.
Qed.
Lemma target_ext s s' ct names size : blocks s' = blocks s -> held s' = held s -> target s ct names size -> target s' ct names size.
Proof. intros B H [P A]. constructor; [|exact A]. intros y Hy. destruct (P y Hy) as (b & o & E & O & Al & L). exists b, o. unfold alive, contents in *. rewrite B, H. auto. Qed.
Definition in_size (names : list string) (size : string -> Z) (l : loc) : Prop := match l with Arr y i => In y names /\ (0 <= i < size y)%Z | _ => False end.
Lemma store_ok s ct names size l v : target s ct names size -> in_size names size l ->
  exists s', c_store ct (l, v) s = Fine s' tt /\ rewritten (out_of ct names) s s' /\ view s' ct l = Some v /\ forall l', in_size names size l' -> l' <> l -> view s' ct l' = view s ct l'.
Proof.
  intros [P A] Hl. destruct l as [y i| |]; cbn in Hl; try tauto. destruct Hl as (Hy & Hi). destruct (P y Hy) as (b & o & E & O & Al & L).
  unfold c_store. cbn [fst snd]. unfold c_write. rewrite E. unfold mbind at 1. cbn [place ret]. rewrite (bind_Fine _ _ _ _ _ (alive_block _ _ Al)).
  assert (W : wr (contents s b) (o + i) v = Ok (upd (contents s b) (Z.to_nat (o + i)) v)). { unfold wr. rewrite (proj2 (Z.leb_le _ _)), (proj2 (Z.ltb_lt _ _)) by lia. reflexivity. }
  unfold mbind at 1. unfold c_lift. rewrite W. set (ys := upd _ _ _). assert (Ly : List.length ys = List.length (contents s b)) by apply upd_length.
  pose proof Al as Al'. unfold alive in Al'. destruct (nth_error (blocks s) b) as [[w xs]|] eqn:Eb; [|discriminate]. assert (Ex : contents s b = xs) by (unfold contents; rewrite Eb; reflexivity).
  destruct (put_block_rw s b xs w Eb ys) as [R C]; [congruence|]. exists (put_block s b ys). split; [reflexivity|].
  split; [eapply rw_weaken; [|exact R]; cbn; intros c ->; exists y, o; auto|]. split.
  - cbn. rewrite E. cbn. rewrite (proj2 (Z.leb_le _ _)) by lia. rewrite C. unfold ys. rewrite nth_error_upd, Nat.eqb_refl. destruct (nth_error (contents s b) (Z.to_nat (o + i))) eqn:X; [reflexivity|].
    apply nth_error_None in X. unfold zlen in L. lia.
  - intros [z j| |] Hl' Ne; cbn in Hl'; try tauto. destruct Hl' as (Hz & Hj). destruct (P z Hz) as (b' & o' & E' & O' & _). cbn. rewrite E'. cbn. destruct (_ <=? _)%Z; [|reflexivity].
    destruct (string_dec z y) as [->|Nz].
    + rewrite E in E'. injection E' as <- <-. rewrite C. unfold ys. rewrite nth_error_upd. destruct (Nat.eqb_spec (Z.to_nat (o + i)) (Z.to_nat (o + j))) as [X|]; [|reflexivity]. exfalso. apply Ne. f_equal. lia.
    + rewrite (rw_contents _ _ _ _ R); [reflexivity|]. intros ->. exact (A _ _ _ _ _ _ Hy Hz (fun X => Nz (eq_sym X)) E E' eq_refl).
Qed.
Lemma stores_ok ct names size ls : forall s, target s ct names size -> NoDup (map fst ls) -> (forall l, In l (map fst ls) -> in_size names size l) ->
  exists s', do_all (c_store ct) ls s = Fine s' tt /\ rewritten (out_of ct names) s s' /\ (forall l v, In (l, v) ls -> view s' ct l = Some v) /\
    forall l, in_size names size l -> ~ In l (map fst ls) -> view s' ct l = view s ct l.
Proof.
  induction ls as [|[l v] ls IH]; intros s Tg ND In_; cbn in *.
  - exists s. split; [reflexivity|]. split; [apply rw_refl|]. split; [intros l v []|auto].
  - inversion ND as [|? ? N1 N2]. subst. destruct (store_ok s ct names size l v Tg (In_ l (or_introl eq_refl))) as (s1 & E1 & R1 & V1 & U1).
    destruct (IH s1 (target_rw _ _ _ _ _ _ R1 Tg) N2 (fun l' H => In_ l' (or_intror H))) as (s2 & E2 & R2 & V2 & U2). exists s2.
    split; [rewrite (do_all_cons _ _ _ _ _ E1); exact E2|]. split; [eapply rw_trans; eauto|]. split.
    + intros l' v' [[= <- <-]|H]; [|auto]. rewrite U2; [exact V1|apply In_; auto|exact N1].
    + intros l' Hl' H'. rewrite U2; [|exact Hl'|tauto]. apply U1; [exact Hl'|]. intros ->. tauto.
Qed.
Lemma combine_fst {A B} (l : list A) (m : list B) : List.length m = List.length l -> map fst (combine l m) = l.
Proof. revert m. induction l as [|x l IH]; intros [|y m] H; cbn in *; try discriminate; [reflexivity|]. rewrite IH by congruence. reflexivity. Qed.
(** The values [xs] are in the cells [ls] *)
Definition holds s ct (ls : list loc) (xs : list T) : Prop := map (view s ct) ls = map Some xs.
Lemma holds_combine s ct ls : forall xs, List.length xs = List.length ls -> (forall l v, In (l, v) (combine ls xs) -> view s ct l = Some v) -> holds s ct ls xs.
Proof. induction ls as [|l ls IH]; intros [|x xs] L H; cbn in *; try discriminate; [reflexivity|]. unfold holds. cbn. rewrite (H l x) by auto. f_equal. apply IH; [congruence|]. intros; apply H; auto. Qed.
Lemma holds_ext s s' ct ls xs : (forall l, In l ls -> view s' ct l = view s ct l) -> holds s ct ls xs -> holds s' ct ls xs.
Proof. intros E H. unfold holds in *. rewrite <- H. apply map_ext_in, E. Qed.
Lemma view_rw t s s' ct l : rewritten t s s' -> (forall y i b o, l = Arr y i -> ct_ptr ct y = Some (b, o) -> ~ t b) -> view s' ct l = view s ct l.
Proof. intros R H. destruct l as [y i| |]; try reflexivity. cbn. destruct (ct_ptr ct y) as [[b o]|] eqn:E; [|reflexivity]. cbn. rewrite (rw_contents _ _ _ _ R); [reflexivity|]. eapply H; eauto. Qed.

Lemma list_stores_ok s ct names size ls xs : target s ct names size -> NoDup ls -> (forall l, In l ls -> in_size names size l) -> List.length xs = List.length ls ->
  exists s', do_all (c_store ct) (combine ls xs) s = Fine s' tt /\ rewritten (out_of ct names) s s' /\ holds s' ct ls xs /\ forall l, in_size names size l -> ~ In l ls -> view s' ct l = view s ct l.
Proof.
  intros Tg ND In_ L. destruct (stores_ok ct names size (combine ls xs) s Tg) as (s' & E & R & V & U); try (rewrite combine_fst by exact L; assumption).
  rewrite combine_fst in U by exact L. exists s'. split; [exact E|]. split; [exact R|]. split; [apply holds_combine; assumption|exact U].
Qed.
Lemma rows_stores_ok ct names size (cells : Z -> list loc) (vals : Z -> list T) iks : forall s, target s ct names size -> NoDup (flat_map cells iks) ->
  (forall l, In l (flat_map cells iks) -> in_size names size l) -> (forall ik, In ik iks -> List.length (vals ik) = List.length (cells ik)) ->
  exists s', do_all (fun ik => do_all (c_store ct) (combine (cells ik) (vals ik))) iks s = Fine s' tt /\ rewritten (out_of ct names) s s' /\
    (forall ik, In ik iks -> holds s' ct (cells ik) (vals ik)) /\ forall l, in_size names size l -> ~ In l (flat_map cells iks) -> view s' ct l = view s ct l.
Proof.
  induction iks as [|ik iks IH]; intros s Tg ND In_ L; cbn [flat_map] in *.
  - exists s. split; [reflexivity|]. split; [apply rw_refl|]. split; [intros ik []|auto].
  - assert (N1 : NoDup (cells ik)). { clear -ND. induction (cells ik) as [|l ls IH]; [constructor|]. cbn in ND. inversion ND. subst. constructor; [rewrite in_app_iff in *; tauto|auto]. }
    assert (N2 : NoDup (flat_map cells iks)). { clear -ND. induction (cells ik) as [|l ls IH]; [exact ND|]. cbn in ND. inversion ND. auto. }
    assert (N3 : forall l, In l (cells ik) -> ~ In l (flat_map cells iks)). { clear -ND. induction (cells ik) as [|l ls IH]; [intros l []|]. cbn in ND. inversion ND. subst. rewrite in_app_iff in *. intros l' [<-|H']; [tauto|auto]. }
    destruct (list_stores_ok s ct names size (cells ik) (vals ik) Tg N1) as (s1 & E1 & R1 & V1 & U1); [intros; apply In_, in_or_app; auto|apply L; left; reflexivity|].
    destruct (IH s1 (target_rw _ _ _ _ _ _ R1 Tg) N2) as (s2 & E2 & R2 & V2 & U2); [intros; apply In_, in_or_app; auto|intros; apply L; right; assumption|].
    exists s2. split; [rewrite (do_all_cons (fun ik => do_all (c_store ct) (combine (cells ik) (vals ik))) _ _ _ _ E1); exact E2|]. split; [eapply rw_trans; eauto|]. split.
    + intros jk [<-|H]; [|auto]. eapply holds_ext; [|exact V1]. intros l Hl. apply U2; [apply In_, in_or_app; auto|auto].
    + intros l Hl H. rewrite in_app_iff in H. rewrite U2, U1; tauto.
Qed.
Lemma do_all_ext {A} (f g : A -> M N unit) l : (forall s x, In x l -> f x s = g x s) -> forall s, do_all f l s = do_all g l s.
Proof.
  intros H. assert (X : forall s, each_ f l s = each_ g l s).
  { induction l as [|x l IH]; intros s; cbn [each_]; [reflexivity|]. unfold mbind at 1. unfold mbind at 2. rewrite (H s x) by (left; reflexivity). destruct (g x s); try reflexivity. unfold mbind.
    rewrite IH by (intros; apply H; right; assumption). reflexivity. }
  intros s. unfold do_all, mbind. rewrite X. reflexivity.
Qed.
End Exact.
