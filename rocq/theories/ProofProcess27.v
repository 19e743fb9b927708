(** ProofProcess27: statements which only concern Python objects have no undefined behaviour. *)
From Coq Require Import ZArith List String Bool Lia PeanoNat.
From Verif Require Import Base Num Common Kernels Integrals Registry PyTerms Threads SpecThreads Process SpecProcess ProofThreads2 ProofThreads3 ProofScratch3 ProofPy ProofProcess ProofProcess2 ProofProcess3 ProofProcess4 ProofProcess5 ProofProcess6 ProofProcess7 ProofProcess8 ProofProcess9 ProofProcess10 ProofProcess11 ProofProcess12 ProofProcess13 ProofProcess14 ProofProcess15 ProofProcess16 ProofProcess17 ProofProcess22 ProofProcess23 ProofProcess24 ProofProcess25 ProofProcess26.
Import ListNotations.
Local Open Scope string_scope.
Local Open Scope nat_scope.

Section Safe.
Context {N : Num}.
Notation T := (T N).
Notation state := (state N).
Implicit Types (s : state) (o l : nat).
Variables (fuel : nat) (suave1 : (list T -> res T) -> res T) (suave12 : (list T -> res (list T)) -> res (list T)).
Notation step := (step fuel suave1 suave12).

(** ** What is reachable is closed under links *)
Inductive path s (m : list nat) : list nat -> nat -> Prop :=
| path_here x : In x m -> path s m [] x
| path_link p x y : path s m p x -> In y (links s x) -> path s m (x :: p) y.
Lemma closure_path s m : forall n x, In x (closure s n m) -> exists p, path s m p x.
Proof.
  intros n. assert (H : forall n m', (forall x, In x m' -> exists p, path s m p x) -> forall x, In x (closure s n m') -> exists p, path s m p x).
  { clear n. induction n as [|n IH]; intros m' Hm x Hx; cbn in Hx; [apply Hm, Hx|]. eapply IH; [|exact Hx]. intros y Hy. apply in_app_or in Hy as [Hy|Hy]; [apply Hm, Hy|]. apply in_flat_map in Hy as (z & Hz & Hy). destruct (Hm z Hz) as (p & Hp). exists (z :: p). econstructor; eauto. }
  apply H. intros x Hx. exists []. constructor. exact Hx.
Qed.
Lemma path_closure s m p x : path s m p x -> In x (closure s (List.length p) m).
Proof. induction 1; cbn [List.length]; [exact H|]. eapply closure_S; eauto. Qed.
Lemma path_cut s m p x : path s m p x -> forall y, In y p -> exists q, path s m q y /\ List.length q < List.length p.
Proof. induction 1 as [x H|p x y H IH L]; intros z Hz; [destruct Hz|]. destruct Hz as [<-|Hz]; [exists p; split; [exact H|cbn; lia]|]. destruct (IH z Hz) as (q & Hq & Lq). exists q. split; [exact Hq|cbn; lia]. Qed.
Lemma path_simple s m : forall n p x, List.length p <= n -> path s m p x -> exists q, path s m q x /\ NoDup (x :: q).
Proof.
  induction n as [n IH] using lt_wf_ind. intros p x Ln Hp. destruct (in_dec Nat.eq_dec x p) as [Hx|Hx].
  - destruct (path_cut _ _ _ _ Hp x Hx) as (q & Hq & Lq). apply (IH (List.length q) ltac:(lia) q x ltac:(lia) Hq).
  - inversion Hp as [y Hy|p' y z H L]; subst.
    + exists []. split; [exact Hp|]. repeat constructor. exact Hx.
    + cbn in Ln. destruct (IH (List.length p') ltac:(lia) p' y ltac:(lia) H) as (q & Hq & Nq). destruct (in_dec Nat.eq_dec x (y :: q)) as [Hx'|Hx'].
      * assert (Hq' : path s m (y :: q) x) by (econstructor; eauto).
        (* a shorter path to x *)
        assert (exists r, path s m r x /\ NoDup (x :: r)); [|assumption].
        clear -Hq Nq Hx' L. revert Hq Nq. assert (G : forall q y, path s m q y -> NoDup (y :: q) -> In x (y :: q) -> exists r, path s m r x /\ NoDup (x :: r)); [|intros; eapply G; eauto].
        clear. induction q as [|z q IH]; intros y Hq Nq Hx.
        { destruct Hx as [<-|[]]. eauto. }
        destruct Hx as [<-|Hx]; [eauto|]. inversion Hq; subst. inversion Nq; subst. eapply IH; eauto.
      * exists (y :: q). split; [econstructor; eauto|]. constructor; [exact Hx'|exact Nq].
Qed.
Lemma path_obj s m p x : path s m p x -> forall y, In y p -> y < List.length (objects s).
Proof.
  induction 1 as [|p x y H IH L]; intros z Hz; [destruct Hz|]. destruct Hz as [<-|Hz]; [|apply IH, Hz]. unfold links in L. destruct (nth_error (objects s) x) eqn:E; [|destruct L]. eapply nth_error_lt, E.
Qed.
Lemma closure_mono s m : forall n n' x, n <= n' -> In x (closure s n m) -> In x (closure s n' m).
Proof.
  intros n n' x L. revert m. induction L as [|n' L IH]; intros m H; [exact H|]. specialize (IH m H). clear -IH. revert m IH. induction n' as [|n' IHn]; intros m H.
  - cbn in *. apply in_or_app. auto.
  - change (In x (closure s (S n') (m ++ flat_map (links s) m)%list)). apply IHn. exact H.
Qed.
Lemma reach_closed s o x : In o (reachable s) -> In x (links s o) -> In x (reachable s).
Proof.
  intros Ho Hx. apply closure_path in Ho as (p & Hp). assert (Hp' : path s (vars s) (o :: p) x) by (econstructor; eauto). destruct (path_simple _ _ _ _ _ (le_n _) Hp') as (q & Hq & Nq).
  unfold reachable. apply (closure_mono _ _ (List.length q)); [|apply path_closure, Hq]. inversion Nq as [|? ? _ Nq']. subst.
  rewrite <- (seq_length (List.length (objects s)) 0). apply NoDup_incl_length; [exact Nq'|]. intros y Hy. apply in_seq. pose proof (path_obj _ _ _ _ Hq y Hy). lia.
Qed.
Lemma reach_path s x : In x (reachable s) <-> exists p, path s (vars s) p x.
Proof.
  split; [apply closure_path|]. intros (p & Hp). destruct (path_simple _ _ _ _ _ (le_n _) Hp) as (q & Hq & Nq). unfold reachable. apply (closure_mono _ _ (List.length q)); [|apply path_closure, Hq]. inversion Nq as [|? ? _ Nq']. subst.
  rewrite <- (seq_length (List.length (objects s)) 0). apply NoDup_incl_length; [exact Nq'|]. intros y Hy. apply in_seq. pose proof (path_obj _ _ _ _ Hq y Hy). lia.
Qed.
Lemma ex_reach s s' x : extends s s' -> In x (reachable s) -> In x (reachable s').
Proof.
  intros X H. apply reach_path in H as (p & H). apply reach_path. exists p. rewrite (ex_vars _ _ X). induction H as [|p x y H IH L]; [constructor; assumption|]. econstructor; [exact IH|].
  unfold links in *. destruct (nth_error (objects s) x) as [ob|] eqn:E; [|destruct L]. rewrite (ex_obj _ _ X _ _ E). exact L.
Qed.
(** ** No crash *)
Definition safe {A} (r : out N A) : Prop := match r with Crash _ => False | _ => True end.
Lemma safe_bind {A B} (m : M N A) (f : A -> M N B) s : safe (m s) -> (forall s' a, m s = Fine s' a -> safe (f a s')) -> safe (mbind m f s).
Proof. unfold mbind. destruct (m s); cbn; auto. Qed.
Lemma safe_nothing m s : safe (m s) -> safe (@nothing N m s).
Proof. intros H. apply safe_bind; [exact H|]. intros. exact I. Qed.
Lemma safe_obj o s : safe (@obj N o s).
Proof. unfold obj. destruct (mem _ _); [|exact I]. destruct (nth_error _ _); exact I. Qed.
Lemma safe_regpt o s : safe (@regpt N o s).
Proof. apply safe_bind; [apply safe_obj|]. intros s' ob _. destruct (has_ctype _); exact I. Qed.
Lemma safe_getitem o x s : safe (@py_getitem N o x s).
Proof. unfold py_getitem, mbind, get. destruct (assoc _ _); exact I. Qed.
Lemma safe_size o s : safe (@py_size N o s).
Proof. apply safe_bind; [apply safe_getitem|]. intros s' a _. apply safe_bind; [unfold beyond_unless; destruct (negb _); exact I|]. intros. exact I. Qed.
Lemma safe_pointer n a s : safe (@np_pointer N n a s).
Proof. unfold np_pointer. destruct (_ && _)%bool; exact I. Qed.
Lemma safe_configure f s : safe (@configure N f s).
Proof. unfold configure. destruct (f _) as [c []]; exact I. Qed.
Lemma safe_set_spectra_B a b n k p s : safe (@c_set_spectra_B N a b n k p s).
Proof. unfold c_set_spectra_B. destruct (set_flag a), (set_flag b); cbn; exact I. Qed.
Lemma safe_deepcopy depth : forall s o m, readable m s -> o < m -> In o (reachable s) -> safe (py_deepcopy depth o s).
Proof.
  induction depth as [|depth IH]; intros s o m R L Ho; (destruct (nth_error (objects s) o) as [ob|] eqn:E; [|pose proof (rb_len _ _ R); apply nth_error_None in E; lia]); rewrite (deep_eq _ _ _ _ E);
  destruct (front_fine s o ob m R L E (fun s' X => ex_reach s s' o X Ho)) as (s2 & Fr); rewrite (bind_Fine _ _ _ _ _ Fr); (destruct (has_ctype (o_class ob)); [|exact I]); (destruct (o_lin ob) as [l|] eqn:El; [|exact I]); unfold attribute, mbind at 1, ret at 1; [exact I|].
  destruct (copied s o ob s2 E (fun xa => rb_sound _ _ R o xa L) (rb_names _ _ R o L) (rb_dict _ _ R _ _ L E) Fr) as (X2 & _ & _ & _).
  apply safe_bind; [|intros; exact I]. apply (IH s2 l m (ex_readable _ _ _ X2 R) (rb_lin _ _ R _ _ _ L E El)). apply (ex_reach s s2 l X2). apply (reach_closed s o l Ho), lin_link. unfold lin_of. rewrite E. exact El.
Qed.
Lemma obj_inv o s s' ob : @obj N o s = Fine s' ob -> s' = s /\ In o (reachable s) /\ nth_error (objects s) o = Some ob.
Proof. unfold obj. destruct (mem o (reachable s)) eqn:M; [|discriminate]. apply mem_In in M. destruct (nth_error _ _); [|discriminate]. intros [= <- <-]. auto. Qed.
Lemma no_crash s p : wf s -> pointer_free p = true -> safe (step p s).
Proof.
  intros W Pf. assert (H : safe (statement fuel suave1 suave12 p s)); [|unfold Process.step; destruct (statement _ _ _ p s); exact H || exact I].
  destruct p; try discriminate Pf; cbn [statement]; try apply safe_nothing; try exact I.
  - apply safe_bind; [apply safe_obj|]. intros s' ob H. unfold attribute. destruct (o_lin ob); exact I.
  - apply safe_bind; [apply safe_obj|]. intros s' ob H. apply safe_bind; [destruct v; [exact I|]; apply safe_bind; [apply safe_obj|intros; apply safe_getitem]|]. intros. exact I.
  - apply safe_bind; [apply safe_obj|]. intros s' ob H. apply obj_inv in H as (-> & Ho & E). apply safe_bind; [apply safe_getitem|]. intros s' a H. unfold py_getitem, mbind, get in H. destruct (assoc (dict_of s o) x) as [a'|] eqn:Ea; [|discriminate]. injection H as <- <-.
    unfold np_set. destruct ((0 <=? i) && (i <? a_len a'))%Z eqn:Bi; [|exact I]. apply andb_prop in Bi as (B1 & B2). apply Z.leb_le in B1. apply Z.ltb_lt in B2. pose proof (alive_dict s o x a' W Ho (assoc_In _ _ _ Ea)) as Al.
    rewrite (bind_Fine _ _ _ _ _ (alive_block _ _ Al)). destruct (sound_dict s o x a' W (assoc_In _ _ _ Ea)) as (_ & xs & Eb & Bd). specialize (Bd i (conj B1 B2)). unfold contents. rewrite Eb. unfold mbind, lift, np_cell, wr. rewrite (proj2 (Z.leb_le _ _)), (proj2 (Z.ltb_lt _ _)) by lia. exact I.
  - apply safe_bind; [apply safe_obj|]. intros s' ob H. unfold get, mbind at 1. apply safe_bind; [|intros; exact I]. apply safe_bind; [unfold beyond_unless; destruct (forallb _ _); exact I|]. intros. exact I.
  - apply safe_bind; [apply safe_obj|]. intros s' ob H. exact I.
  - apply safe_bind; [apply safe_obj|]. intros s' ob H. apply obj_inv in H as (-> & Ho & E). unfold get, mbind at 1. apply safe_bind; [|intros; exact I]. apply (safe_deepcopy _ s o (List.length (objects s)) (readable_wf s W)); [eapply nth_error_lt, E|exact Ho].
  - apply safe_bind; [apply safe_regpt|]. intros. apply safe_configure.
  - apply safe_bind; [apply safe_regpt|]. intros. apply safe_configure.
  - apply safe_bind; [apply safe_regpt|]. intros. apply safe_bind; [apply safe_configure|]. intros. exact I.
  - apply safe_bind; [apply safe_regpt|]. intros. exact I.
  - apply safe_bind; [apply safe_regpt|]. intros. apply safe_bind; [apply safe_obj|]. intros. apply safe_bind; [apply safe_size|]. intros. apply safe_bind; [apply safe_getitem|]. intros. apply safe_bind; [apply safe_getitem|]. intros.
    apply safe_bind; [apply safe_pointer|]. intros. apply safe_bind; [apply safe_pointer|]. intros. apply safe_set_spectra_B.
Qed.
End Safe.
