(** ProofProcess19: the library frees what it allocates, in every program. *)
From Coq Require Import ZArith List String Bool Lia PeanoNat.
From Verif Require Import Base Num Common Kernels Integrals Registry PyTerms Threads SpecThreads Process SpecProcess ProofThreads2 ProofThreads3 ProofScratch3 ProofProcess ProofProcess2 ProofProcess3 ProofProcess4 ProofProcess5 ProofProcess6 ProofProcess18.
Import ListNotations.
Local Open Scope string_scope.
Local Open Scope nat_scope.

Section Leak.
Context {N : Num}.
Notation T := (T N).
Notation state := (state N).
Implicit Types (s : state) (o l : nat).
Variables (fuel : nat) (suave1 : (list T -> res T) -> res T) (suave12 : (list T -> res (list T)) -> res (list T)).

Definition cal s b : Prop := exists xs, nth_error (blocks s) b = Some (Calloc, xs).
Definition tidies s s' : Prop := (forall b, cal s' b -> cal s b) /\ List.length (blocks s) <= List.length (blocks s').
Definition statics s s' : Prop := g_terms s' = g_terms s /\ g_1loop s' = g_1loop s /\ g_dt s' = g_dt s /\ g_tt s' = g_tt s.
(** No block of the library more than before; and the static variables are as before *)
Definition tidy {A} (m : M N A) : Prop := forall s, match m s with Fine s' _ | Throws _ s' => tidies s s' | _ => True end.
Definition quiet {A} (m : M N A) : Prop := forall s, match m s with Fine s' _ => tidies s s' /\ statics s s' | Throws _ _ => False | _ => True end.
Lemma tidies_refl s : tidies s s. Proof. split; auto. Qed.
Lemma tidies_trans a b c : tidies a b -> tidies b c -> tidies a c. Proof. intros [H1 L1] [H2 L2]. split; [auto|lia]. Qed.
Lemma statics_refl s : statics s s. Proof. repeat split. Qed.
Lemma statics_trans a b c : statics a b -> statics b c -> statics a c. Proof. intros (A & B & C & D) (A' & B' & C' & D'). repeat split; congruence. Qed.
Lemma tidies_same s s' : blocks s' = blocks s -> tidies s s'. Proof. intros E. split; [|rewrite E; auto]. intros b (xs & H). exists xs. rewrite <- E. exact H. Qed.
Lemma quiet_tidy {A} (m : M N A) : quiet m -> tidy m.
Proof. intros H s. specialize (H s). destruct (m s); try tauto. Qed.
Lemma pure_tidy {A} (m : M N A) : pure m -> tidy m.
Proof. intros H s. specialize (H s). destruct (m s); try tauto; subst; apply tidies_refl. Qed.
Lemma tidy_bind {A B} (m : M N A) (f : A -> M N B) : tidy m -> (forall a, tidy (f a)) -> tidy (mbind m f).
Proof. intros H K s. specialize (H s). unfold mbind. destruct (m s) as [s1 a|e s1| |]; auto. specialize (K a s1). destruct (f a s1); auto; eapply tidies_trans; eauto. Qed.
Lemma quiet_bind {A B} (m : M N A) (f : A -> M N B) : quiet m -> (forall a, quiet (f a)) -> quiet (mbind m f).
Proof. intros H K s. specialize (H s). unfold mbind. destruct (m s) as [s1 a|e s1| |]; auto. destruct H as [H1 H2]. specialize (K a s1). destruct (f a s1); auto. destruct K. split; [eapply tidies_trans|eapply statics_trans]; eauto. Qed.
Lemma tidy_each {A B} (f : A -> M N B) (l : list A) : (forall a, tidy (f a)) -> tidy (each_ f l).
Proof. intros H. induction l; cbn [each_]; [apply pure_tidy, pure_ret|]. apply tidy_bind; [apply H|]. intros. apply tidy_bind; [exact IHl|]. intros. apply pure_tidy, pure_ret. Qed.
Lemma quiet_ret {A} (a : A) : quiet (@ret N A a). Proof. intros s. split; [apply tidies_refl|apply statics_refl]. Qed.
Lemma quiet_each {A B} (f : A -> M N B) (l : list A) : (forall a, quiet (f a)) -> quiet (each_ f l).
Proof. intros H. induction l; cbn [each_]; [apply quiet_ret|]. apply quiet_bind; [apply H|]. intros. apply quiet_bind; [exact IHl|]. intros. apply quiet_ret. Qed.
Lemma tidy_do_all {A} (f : A -> M N unit) (l : list A) : (forall a, tidy (f a)) -> tidy (do_all f l).
Proof. intros H. apply tidy_bind; [apply tidy_each, H|]. intros. apply pure_tidy, pure_ret. Qed.
Lemma quiet_do_all {A} (f : A -> M N unit) (l : list A) : (forall a, quiet (f a)) -> quiet (do_all f l).
Proof. intros H. apply quiet_bind; [apply quiet_each, H|]. intros. apply quiet_ret. Qed.
(** ** Quiet code of the library *)
Lemma quiet_get : quiet (@get N). Proof. intros s. split; [apply tidies_refl|apply statics_refl]. Qed.
Lemma quiet_c_lift {A} (r : res A) : quiet (@c_lift N A r). Proof. intros s. destruct r; cbn; [split; [apply tidies_refl|apply statics_refl]|exact I]. Qed.
Lemma quiet_beyond b : quiet (@beyond_unless N b). Proof. intros s. destruct b; cbn; [split; [apply tidies_refl|apply statics_refl]|exact I]. Qed.
Lemma quiet_place p : quiet (@place N p). Proof. destruct p; [apply quiet_ret|]. intros s. exact I. Qed.
Lemma quiet_block b : quiet (@block N b).
Proof. intros s. unfold block. destruct (alive s b); [|exact I]. destruct (nth_error (blocks s) b) as [[]|]; [split; [apply tidies_refl|apply statics_refl]|exact I]. Qed.
Lemma quiet_modify f : (forall s, tidies s (f s) /\ statics s (f s)) -> quiet (@modify N f). Proof. intros H s. apply H. Qed.
Lemma put_tidies s b xs : tidies s (put_block s b xs) /\ statics s (put_block s b xs).
Proof.
  unfold put_block. destruct (nth_error (blocks s) b) as [[w ys]|] eqn:E; [|split; [apply tidies_refl|apply statics_refl]]. split; [|repeat split]. split; [|cbn; rewrite upd_length; lia].
  intros c (zs & H). cbn in H. rewrite nth_error_upd in H. destruct (Nat.eqb_spec b c) as [<-|]; [|exists zs; exact H]. rewrite E in H. injection H as -> _. exists ys. exact E.
Qed.
Lemma quiet_read p i : quiet (@c_read N p i).
Proof. apply quiet_bind; [apply quiet_place|]. intros [b o]. apply quiet_bind; [apply quiet_block|]. intros. apply quiet_c_lift. Qed.
Lemma quiet_write p i x : quiet (@c_write N p i x).
Proof. apply quiet_bind; [apply quiet_place|]. intros [b o]. apply quiet_bind; [apply quiet_block|]. intros. apply quiet_bind; [apply quiet_c_lift|]. intros. apply quiet_modify. intros. apply put_tidies. Qed.
Lemma quiet_read_n p n : quiet (@c_read_n N p n). Proof. apply quiet_each. intros. apply quiet_read. Qed.
Lemma quiet_table c : quiet (@c_table N c).
Proof. apply quiet_bind; [apply quiet_place|]. intros. apply quiet_bind; [apply quiet_read_n|]. intros. apply quiet_bind; [apply quiet_read_n|]. intros. apply quiet_ret. Qed.
Lemma quiet_print k n : quiet (when_info (@c_print N k n)).
Proof. apply quiet_bind; [apply quiet_get|]. intros s. destruct (g_verbose s); [apply quiet_ret| |apply quiet_ret]. apply quiet_bind; [apply quiet_read|]. intros. apply quiet_bind; [apply quiet_read|]. intros. apply quiet_ret. Qed.
Lemma quiet_overlap sl (l : list nat) : quiet (@no_overlap N sl l). Proof. apply quiet_bind; [apply quiet_get|]. intros. apply quiet_beyond. Qed.
Lemma quiet_store ct lx : quiet (@c_store N ct lx). Proof. unfold c_store. destruct (fst lx); try apply quiet_ret. apply quiet_write. Qed.
Lemma quiet_columns d : quiet (@c_columns N d).
Proof.
  apply quiet_bind; [apply quiet_get|]. intros s. cbv zeta. apply quiet_bind; [apply quiet_overlap|]. intros. apply quiet_bind; [apply quiet_table|]. intros. apply quiet_bind; [apply quiet_read_n|]. intros.
  apply quiet_bind; [apply quiet_c_lift|]. intros. apply quiet_bind; [apply quiet_do_all; intros; apply quiet_store|]. intros. apply quiet_bind; [apply quiet_c_lift|]. intros.
  apply quiet_bind; [apply quiet_do_all; intros; apply quiet_store|]. intros. apply quiet_ret.
Qed.
Lemma quiet_rows d pkl ks dt ptt : quiet (c_rows (N := N) fuel suave1 suave12 d pkl ks dt ptt).
Proof. apply quiet_bind; [apply quiet_get|]. intros s. cbv zeta. apply quiet_do_all. intros. apply quiet_bind; [apply quiet_c_lift|]. intros. apply quiet_do_all. intros; apply quiet_store. Qed.
Lemma quiet_latch x pkl : quiet (@c_latch N x pkl).
Proof.
  apply quiet_bind; [apply quiet_get|]. intros s. cbv zeta. destruct (_ || _); [|apply quiet_ret]. apply quiet_bind; [apply quiet_c_lift|]. intros. apply quiet_modify. intros s'. split; [apply tidies_same; reflexivity|repeat split].
Qed.
Lemma quiet_run_terms d : quiet (c_run_terms (N := N) fuel suave1 suave12 d).
Proof. apply quiet_bind; [apply quiet_columns|]. intros [pkl ks]. apply quiet_bind; [destruct d; apply quiet_ret || apply quiet_latch|]. intros. apply quiet_rows. Qed.
Lemma quiet_spectrum p : quiet (@c_spectrum N p).
Proof.
  apply quiet_bind; [apply quiet_get|]. intros s. cbv zeta. apply quiet_do_all. intros. do 6 (apply quiet_bind; [apply quiet_read|]; intros). apply quiet_write.
Qed.
(** ** Freeing *)
Lemma free_Fine p s : match c_free (N := N) p s with Fine s' _ => (forall c, cal s' c -> cal s c /\ (forall b (o : Z), p = Some (b, o) -> c <> b)) /\ List.length (blocks s') = List.length (blocks s) /\ statics s s' | Throws _ _ => False | _ => True end.
Proof.
  unfold c_free. destruct p as [[b o]|]; [|split; [intros c H; split; [exact H|discriminate]|split; [reflexivity|apply statics_refl]]].
  destruct (nth_error (blocks s) b) as [[[] xs]|] eqn:E; try exact I. destruct (o =? 0)%Z; [|exact I]. split; [|split; [cbn; apply upd_length|repeat split]].
  intros c (ys & H). cbn in H. rewrite nth_error_upd in H. destruct (Nat.eqb_spec b c) as [<-|Nb]; [rewrite E in H; discriminate|]. split; [exists ys; exact H|]. intros b' o' [= -> _] ->. contradiction.
Qed.
Lemma frees_Fine {A} (f : A -> ptr) (l : list A) : forall s, match do_all (fun x => c_free (N := N) (f x)) l s with
  | Fine s' _ => (forall c, cal s' c -> cal s c /\ forall x b (o : Z), In x l -> f x = Some (b, o) -> c <> b) /\ List.length (blocks s') = List.length (blocks s) /\ statics s s' | Throws _ _ => False | _ => True end.
Proof.
  induction l as [|x l IH]; intros s.
  - rewrite do_all_nil. split; [intros c H; split; [exact H|intros ? ? ? []]|split; [reflexivity|apply statics_refl]].
  - pose proof (free_Fine (f x) s) as H. destruct (c_free (f x) s) as [s1 []|e s1|u|] eqn:E.
    + rewrite (do_all_cons (fun x => c_free (f x)) x l s s1 E). specialize (IH s1). destruct (do_all _ l s1); auto. destruct H as (H1 & H2 & H3). destruct IH as (I1 & I2 & I3).
      split; [|split; [congruence|eapply statics_trans; eauto]]. intros c Hc. apply I1 in Hc as (Hc & Hl). apply H1 in Hc as (Hc & Hx). split; [exact Hc|]. intros y b o [<-|Hy] Ey; [exact (Hx _ _ Ey)|exact (Hl _ _ _ Hy Ey)].
    + destruct H.
    + unfold do_all. unfold mbind at 1. cbn [each_]. unfold mbind at 1. rewrite E. exact I.
    + unfold do_all. unfold mbind at 1. cbn [each_]. unfold mbind at 1. rewrite E. exact I.
Qed.
Lemma set_terms_quiet sl n args s : match c_set_terms (N := N) sl n args s with Fine s' _ => tidies s s' /\ g_1loop s' = g_1loop s /\ g_dt s' = g_dt s /\ g_tt s' = g_tt s /\ (forall y, ct_ptr (g_terms s' sl) y = match assoc (combine (c_fields sl) args) y with Some p => p | None => None end) | Throws _ _ => False | _ => True end.
Proof.
  unfold c_set_terms. cbv zeta. unfold modify at 1, mbind at 1. set (s1 := with_terms s _). pose proof (quiet_print (match assoc (combine (c_fields sl) args) "k" with Some p => p | None => None end) n s1) as H. destruct (when_info _ s1) as [s' a|e s'|u|]; auto.
  destruct H as [H (G & A & B & C)]. split; [exact H|]. split; [rewrite A; reflexivity|]. split; [rewrite B; reflexivity|]. split; [rewrite C; reflexivity|]. intros y. rewrite G. cbn. rewrite ProofProcess.slot_eqb_refl. reflexivity.
Qed.
Lemma spectrum_1loop_Fine a b s : match c_run_spectrum_1loop (N := N) fuel suave1 suave12 a b s with Fine s' _ => tidies s s' /\ g_dt s' = g_dt s /\ g_tt s' = g_tt s | Throws _ _ => False | _ => True end.
Proof.
  unfold c_run_spectrum_1loop, get. unfold mbind at 1. rewrite (bind_Fine _ _ _ _ _ (callocs_ok (cp_n (g_1loop s)) [tt; tt; tt; tt; tt] s)). cbn [map List.length seq]. set (nb := List.length (blocks s)). set (s1 := with_blocks s _).
  assert (C1 : forall c, cal s1 c -> cal s c \/ exists j, j < 5 /\ c = nb + j).
  { intros c (xs & H). destruct (le_lt_dec nb c) as [Hc|Hc]; [|left; exists xs; unfold s1 in H; cbn in H; rewrite nth_error_app1 in H; [exact H|exact Hc]]. right. exists (c - nb). assert (c < List.length (blocks s1)) by (apply nth_error_Some; congruence). unfold s1 in H0. cbn in H0. rewrite app_length in H0. cbn in H0. fold nb in H0. lia. }
  assert (L1 : nb <= List.length (blocks s1)) by (unfold s1; cbn; rewrite app_length; fold nb; lia).
  pose proof (set_terms_quiet S_1loop (cp_n (g_1loop s)) [cp_k (g_1loop s); Some (nb + 0, 0%Z); Some (nb + 1, 0%Z); Some (nb + 2, 0%Z); Some (nb + 3, 0%Z); Some (nb + 4, 0%Z)] s1) as H2.
  unfold mbind at 1. destruct (c_set_terms _ _ _ s1) as [s2 []|e s2|u|]; auto. destruct H2 as (D2 & Q2 & G2 & G2' & P2).
  pose proof (quiet_run_terms (D_1loop (set_flag a) (set_flag b)) s2) as H3. unfold mbind at 1. destruct (c_run_terms _ _ _ _ s2) as [s3 []|e s3|u|]; auto. destruct H3 as (D3 & P3 & Q3 & G3 & G3').
  unfold mbind at 1. pose proof (quiet_spectrum (cp_p (g_1loop s3)) s3) as H4. unfold mbind at 1. destruct (c_spectrum _ s3) as [s4 []|e s4|u|]; auto. destruct H4 as (D4 & P4 & Q4 & G4 & G4').
  unfold mbind. pose proof (frees_Fine (fun x => ct_ptr (g_terms s4 S_1loop) x) ["pk_lin"; "sigmad2"; "gamma1a_1loop"; "gamma1b_1loop"; "pk_gamma2_tree_tree"] s4) as H5. destruct (do_all _ _ s4) as [s5 []|e s5|u|]; auto. destruct H5 as (C5 & L5 & P5 & Q5 & G5 & G5').
  assert (D14 : tidies s1 s4) by (eapply tidies_trans; [exact D2|]; eapply tidies_trans; [exact D3|exact D4]). destruct D14 as [D14 L14].
  split; [|split; [rewrite G5, G4, G3, G2; reflexivity|rewrite G5', G4', G3', G2'; reflexivity]]. split; [|rewrite L5; fold nb; lia].
  intros c Hc. apply C5 in Hc as (Hc & Hf). destruct (C1 c (D14 c Hc)) as [|(j & Hj & ->)]; [assumption|]. exfalso. rewrite P4, P3 in Hf.
  destruct j as [|[|[|[|[|]]]]]; [refine (Hf "pk_lin" _ 0%Z _ _ eq_refl)|refine (Hf "sigmad2" _ 0%Z _ _ eq_refl)|refine (Hf "gamma1a_1loop" _ 0%Z _ _ eq_refl)|refine (Hf "gamma1b_1loop" _ 0%Z _ _ eq_refl)|refine (Hf "pk_gamma2_tree_tree" _ 0%Z _ _ eq_refl)|lia]; try (cbn; tauto); rewrite P2; reflexivity.
Qed.
Lemma spectra_B_Fine s : match c_run_spectra_B_1loop (N := N) fuel suave1 suave12 s with
  | Fine s' _ => List.length (blocks s) <= List.length (blocks s') /\ (exists b c, cp_p (g_dt s') = Some (b, 0%Z) /\ cp_p (g_tt s') = Some (c, 0%Z) /\ forall x, cal s' x -> cal s x \/ x = b \/ x = c) | Throws _ _ => False | _ => True end.
Proof.
  unfold c_run_spectra_B_1loop, get. unfold mbind at 1.
  rewrite (bind_Fine _ _ s (with_blocks s (blocks s ++ [(Calloc, repeat (nZ N 0) (Z.to_nat (cp_n (g_lin s))))])%list) (Some (List.length (blocks s), 0%Z))) by reflexivity.
  set (s1 := with_blocks s _). set (b := List.length (blocks s)).
  assert (C1 : forall c, cal s1 c -> cal s c \/ c = b).
  { intros c (xs & H). unfold s1 in H. cbn in H. rewrite nth_error_snoc in H. destruct (Nat.eqb_spec c (List.length (blocks s))) as [->|]; [right; reflexivity|left; exists xs; exact H]. }
  assert (L1 : List.length (blocks s1) = S b) by (unfold s1; cbn; rewrite app_length; cbn; fold b; lia).
  unfold modify at 1, mbind at 1. unfold c_set_spectrum_1loop, modify at 1, mbind at 1. set (s2 := with_1loop _ _).
  pose proof (spectrum_1loop_Fine "delta" "theta" s2) as H3. unfold mbind at 1. destruct (c_run_spectrum_1loop _ _ _ "delta" "theta" s2) as [s3 []|e s3|u|]; auto. destruct H3 as ((C3 & L3) & D3 & _).
  rewrite (bind_Fine _ _ s3 (with_blocks s3 (blocks s3 ++ [(Calloc, repeat (nZ N 0) (Z.to_nat (cp_n (g_lin s))))])%list) (Some (List.length (blocks s3), 0%Z))) by reflexivity.
  set (s4 := with_blocks s3 _). set (c := List.length (blocks s3)).
  assert (C4 : forall x, cal s4 x -> cal s3 x \/ x = c).
  { intros x (xs & H). unfold s4 in H. cbn in H. rewrite nth_error_snoc in H. destruct (Nat.eqb_spec x (List.length (blocks s3))) as [->|]; [right; reflexivity|left; exists xs; exact H]. }
  assert (L4 : List.length (blocks s4) = S c) by (unfold s4; cbn; rewrite app_length; cbn; fold c; lia).
  unfold modify at 1, mbind at 1. unfold modify at 1, mbind at 1. set (s5 := with_1loop _ _).
  pose proof (spectrum_1loop_Fine "theta" "theta" s5) as H6. destruct (c_run_spectrum_1loop _ _ _ "theta" "theta" s5) as [s6 []|e s6|u|]; auto. destruct H6 as ((C6 & L6) & D6 & E6).
  change (List.length (blocks s2)) with (List.length (blocks s1)) in L3. change (List.length (blocks s5)) with (List.length (blocks s4)) in L6. fold c in L3.
  split; [fold b; lia|]. exists b, c. split; [rewrite D6; cbn; rewrite D3; reflexivity|]. split; [rewrite E6; reflexivity|].
  intros x Hx. apply C6 in Hx. change (cal s4 x) in Hx. apply C4 in Hx as [Hx|Hx]; [|auto]. apply C3 in Hx. change (cal s1 x) in Hx. apply C1 in Hx as [Hx|Hx]; auto.
Qed.
Lemma tidy_run_terms_B : tidy (c_run_terms_B (N := N) fuel suave1 suave12).
Proof.
  intros s. unfold c_run_terms_B. unfold mbind at 1. pose proof (quiet_columns D_B s) as H. destruct (c_columns D_B s) as [s1 [pkl ks]|e s1|u|]; auto. 2: destruct H. destruct H as (D1 & _).
  unfold get at 1, mbind at 1. cbv zeta. destruct ((_ || _)%bool) eqn:Ec.
  - unfold mbind at 1. pose proof (spectra_B_Fine s1) as H2. destruct (c_run_spectra_B_1loop _ _ _ s1) as [s2 []|e s2|u|]; auto. 2: destruct H2. destruct H2 as (L2 & b & c & Eb & Ecc & C2).
    assert (Q : quiet (mbind (no_overlap S_B (buf_of (cp_k (g_dt s2)) ++ buf_of (cp_p (g_dt s2)) ++ buf_of (cp_k (g_tt s2)) ++ buf_of (cp_p (g_tt s2)))) (fun _ => mbind (c_table (g_dt s2)) (fun dt => mbind (c_table (g_tt s2)) (fun ptt => c_rows fuel suave1 suave12 D_B pkl ks dt ptt))))).
    { apply quiet_bind; [apply quiet_overlap|]. intros. apply quiet_bind; [apply quiet_table|]. intros. apply quiet_bind; [apply quiet_table|]. intros. apply quiet_rows. }
    specialize (Q s2). unfold get at 1. unfold mbind in *. destruct (no_overlap _ _ s2) as [s3 []|e s3|u|]; auto. 2: destruct Q. destruct (c_table (g_dt s2) s3) as [s4 dt|e s4|u|]; auto. 2: destruct Q. destruct (c_table (g_tt s2) s4) as [s5 ptt|e s5|u|]; auto. 2: destruct Q.
    destruct (c_rows _ _ _ _ _ _ _ _ s5) as [s6 []|e s6|u|]; auto. 2: destruct Q. destruct Q as ((C6 & L6) & _ & _ & D6 & E6). unfold c_free_spectra_B, get, mbind.
    pose proof (free_Fine (cp_p (g_dt s6)) s6) as H7. destruct (c_free (cp_p (g_dt s6)) s6) as [s7 []|e s7|u|]; auto. 2: destruct H7. destruct H7 as (C7 & L7 & _ & _ & D7 & E7).
    pose proof (free_Fine (cp_p (g_tt s6)) s7) as H8. destruct (c_free (cp_p (g_tt s6)) s7) as [s8 []|e s8|u|]; auto. 2: destruct H8. destruct H8 as (C8 & L8 & _).
    eapply tidies_trans; [exact D1|]. split; [|lia]. intros x Hx. apply C8 in Hx as (Hx & X8). apply C7 in Hx as (Hx & X7). apply C6 in Hx. destruct (C2 x Hx) as [|[->| ->]]; [assumption| |].
    + exfalso. refine (X7 b 0%Z _ eq_refl). rewrite D6. exact Eb.
    + exfalso. refine (X8 c 0%Z _ eq_refl). rewrite E6. exact Ecc.
  - assert (Q : quiet (mbind (ret tt) (fun _ : unit => mbind get (fun s => mbind (no_overlap S_B (buf_of (cp_k (g_dt s)) ++ buf_of (cp_p (g_dt s)) ++ buf_of (cp_k (g_tt s)) ++ buf_of (cp_p (g_tt s)))) (fun _ => mbind (c_table (g_dt s)) (fun dt => mbind (c_table (g_tt s)) (fun ptt => mbind (c_rows fuel suave1 suave12 D_B pkl ks dt ptt) (fun _ => ret tt)))))))).
    { apply quiet_bind; [apply quiet_ret|]. intros. apply quiet_bind; [apply quiet_get|]. intros. apply quiet_bind; [apply quiet_overlap|]. intros. apply quiet_bind; [apply quiet_table|]. intros. apply quiet_bind; [apply quiet_table|]. intros. apply quiet_bind; [apply quiet_rows|]. intros. apply quiet_ret. }
    specialize (Q s1). fold (@get N). unfold get. unfold get in Q. destruct (mbind (ret tt) _ s1) as [s2 []|e s2|u|]; auto. 2: destruct Q. eapply tidies_trans; [exact D1|]. apply Q.
Qed.
(** ** The statements *)
Lemma tidy_new_block xs : tidy (@new_block N Numpy xs).
Proof.
  intros s. split; [|cbn; rewrite app_length; lia]. intros b (ys & H). cbn in H. rewrite nth_error_snoc in H. destruct (Nat.eqb_spec b (List.length (blocks s))) as [->|]; [discriminate|exists ys; exact H].
Qed.
Lemma tidy_modify f : (forall s, blocks (f s) = blocks s) -> tidy (@modify N f). Proof. intros H s. apply tidies_same, H. Qed.
Ltac tp H := apply pure_tidy, H.
Lemma tidy_np_new xs : tidy (@np_new N xs). Proof. apply tidy_bind; [apply tidy_new_block|]. intros. tp (@pure_ret N array). Qed.
Lemma tidy_np_set a i x : tidy (@np_set N a i x).
Proof.
  unfold np_set. destruct (_ && _)%bool; [|apply pure_tidy, pure_throw]. apply tidy_bind; [apply pure_tidy, pure_block|]. intros. apply tidy_bind; [apply pure_tidy, pure_lift|]. intros. intros s. apply (put_tidies s).
Qed.
Lemma tidy_np_put a xs : tidy (@np_put N a xs). Proof. apply tidy_do_all. intros. apply tidy_np_set. Qed.
Lemma tidy_set_obj o f : tidy (@set_obj N o f). Proof. apply tidy_modify. intros s. destruct (nth_error (objects s) o); reflexivity. Qed.
Lemma tidy_new_object c d : tidy (@new_object N c d). Proof. intros s. unfold new_object. apply tidies_same. destruct (has_ctype c); reflexivity. Qed.
Lemma tidy_hold o : tidy (@hold N o). Proof. apply tidy_modify. reflexivity. Qed.
Lemma tidy_setitem o x a : tidy (@py_setitem N o x a). Proof. apply tidy_modify. intros s. destruct (nth_error (objects s) o); reflexivity. Qed.
Lemma tidy_c_set_pk_lin k p n : tidy (@c_set_pk_lin N k p n). Proof. apply tidy_bind; [apply tidy_modify; reflexivity|]. intros. apply quiet_tidy, quiet_print. Qed.
Lemma tidy_set_spectrum_lin o l : tidy (@py_set_spectrum_lin N o l).
Proof.
  apply tidy_bind; [apply tidy_set_obj|]. intros. apply tidy_bind; [apply pure_tidy, pure_size|]. intros. do 2 (apply tidy_bind; [apply pure_tidy, pure_getitem|]; intros). do 2 (apply tidy_bind; [apply pure_tidy, pure_pointer|]; intros). apply tidy_c_set_pk_lin.
Qed.
Lemma tidy_set_pk_lin o K P : tidy (@py_set_pk_lin N o K P).
Proof. do 2 (apply tidy_bind; [apply tidy_np_new|]; intros). apply tidy_bind; [apply tidy_new_object|]. intros. apply tidy_set_spectrum_lin. Qed.
Lemma tidy_zeros o c ks : tidy (@py_zeros N o c ks).
Proof.
  apply tidy_bind; [apply tidy_np_new|]. intros. apply tidy_bind; [apply tidy_setitem|]. intros. apply tidy_do_all. intros x. destruct (x =? "k")%string; [apply pure_tidy, pure_ret|]. cbv zeta. apply tidy_bind; [apply tidy_np_new|]. intros. apply tidy_setitem.
Qed.
Lemma tidy_reshape o c : tidy (@py_reshape N o c).
Proof.
  apply tidy_do_all. intros x. destruct (ncomp c x); [|apply pure_tidy, pure_ret]. apply tidy_bind; [apply pure_tidy, pure_getitem|]. intros. apply tidy_bind; [apply pure_tidy, pure_size|]. intros. destruct (_ =? _)%Z; [apply tidy_setitem|apply pure_tidy, pure_throw].
Qed.
Lemma tidy_c_set_terms sl n args : tidy (@c_set_terms N sl n args).
Proof. intros s. pose proof (set_terms_quiet sl n args s) as H. destruct (c_set_terms sl n args s); auto; tauto. Qed.
Lemma tidy_set_terms o c ks : tidy (@py_set_terms N o c ks).
Proof.
  unfold py_set_terms. destruct (slot_of c); [|apply pure_tidy, pure_throw]. apply tidy_bind; [apply tidy_zeros|]. intros. apply tidy_bind; [apply pure_tidy, pure_size|]. intros. apply tidy_bind; [apply tidy_each; intros; apply pure_tidy, pure_getitem|]. intros.
  apply tidy_bind; [apply tidy_each; intros; apply tidy_bind; [apply pure_tidy, pure_ret|]; intros; apply pure_tidy, pure_pointer|]. intros. apply tidy_bind; [apply tidy_c_set_terms|]. intros. destruct c; try (apply pure_tidy, pure_ret); apply tidy_reshape.
Qed.
Lemma tidy_set_spectra_B a b n k p : tidy (@c_set_spectra_B N a b n k p).
Proof.
  unfold c_set_spectra_B. cbv zeta. destruct (match set_flag a with DELTA => _ | THETA => _ end) as [first b']. apply tidy_bind; [destruct first; [apply tidy_modify; reflexivity|apply pure_tidy, pure_ret]|]. intros.
  destruct (set_flag a), b'; try (apply pure_tidy, pure_ret). apply tidy_modify; reflexivity.
Qed.
Lemma tidy_spectra_B l dt ptt : tidy (@py_spectra_B N l dt ptt).
Proof.
  apply tidy_bind; [apply pure_tidy, pure_size|]. intros. apply tidy_bind; [apply pure_tidy, pure_getitem|]. intros. do 2 (apply tidy_bind; [apply pure_tidy, pure_pointer|]; intros). apply tidy_bind; [apply tidy_set_spectra_B|]. intros. apply tidy_bind; [apply pure_tidy, pure_pointer|]. intros. apply tidy_set_spectra_B.
Qed.
Lemma tidy_sub_1loop l attach a b : (forall x, tidy (attach x)) -> tidy (py_sub_1loop (N := N) fuel suave1 suave12 l attach a b).
Proof.
  intros H. apply tidy_bind; [apply tidy_new_object|]. intros. apply tidy_bind; [apply H|]. intros. apply tidy_bind; [apply pure_tidy, pure_getitem|]. intros. apply tidy_bind; [apply pure_tidy, pure_np_get|]. intros. apply tidy_bind; [apply tidy_set_terms|]. intros.
  apply tidy_bind; [apply quiet_tidy, quiet_run_terms|]. intros. apply pure_tidy, pure_ret.
Qed.
Lemma tidy_pk_1loop o : tidy (@py_pk_1loop N o).
Proof.
  apply tidy_bind; [apply pure_tidy, pure_columns|]. intros. apply tidy_bind; [apply pure_tidy, pure_lift|]. intros. apply tidy_bind; [apply tidy_np_new|]. intros. apply tidy_bind; [apply tidy_modify; reflexivity|]. intros. apply pure_tidy, pure_ret.
Qed.
Lemma tidy_run o ob a b : tidy (py_run_terms (N := N) fuel suave1 suave12 o ob a b).
Proof.
  unfold py_run_terms. destruct (o_class ob); try (apply pure_tidy, pure_throw); try (apply quiet_tidy, quiet_run_terms).
  - apply tidy_bind; [apply quiet_tidy, quiet_run_terms|]. intros. apply tidy_reshape.
  - apply tidy_bind; [apply pure_tidy, pure_attribute|]. intros. apply tidy_bind; [apply pure_tidy, pure_getitem|]. intros. apply tidy_bind; [apply tidy_spectra_B|]. intros. apply tidy_run_terms_B.
  - apply tidy_bind; [apply pure_tidy, pure_attribute|]. intros. do 2 (apply tidy_bind; [apply tidy_sub_1loop; intros; apply tidy_set_obj|]; intros). do 2 (apply tidy_bind; [apply tidy_pk_1loop|]; intros). apply tidy_bind; [apply tidy_spectra_B|]. intros. apply tidy_run_terms_B.
Qed.
Lemma tidy_pad_k o c k x im : tidy (@py_pad_k N o c k x im).
Proof.
  unfold py_pad_k. apply tidy_bind; [apply pure_tidy, pure_getitem|]. intros. apply tidy_bind; [apply pure_tidy, pure_np_get|]. intros. do 2 (apply tidy_bind; [apply pure_tidy, pure_lift|]; intros). cbv zeta.
  apply tidy_bind. { apply tidy_do_all. intros y. apply tidy_bind; [apply pure_tidy, pure_getitem|]. intros a3. destruct (a_2d a3); [apply pure_tidy, pure_throw|]. apply tidy_bind; [apply pure_tidy, pure_np_get|]. intros. apply tidy_bind; [apply tidy_np_new|]. intros. apply tidy_setitem. }
  intros. apply tidy_bind; [apply pure_tidy, pure_getitem|]. intros. apply tidy_bind; [apply pure_tidy, pure_np_get|]. intros. do 2 (apply tidy_bind; [apply pure_tidy, pure_lift|]; intros; apply tidy_bind; [apply tidy_np_put|]; intros).
  apply tidy_bind.
  - destruct (_ && _)%bool; [|apply pure_tidy, pure_ret]. apply tidy_bind; [apply pure_tidy, pure_find|]. intros. apply tidy_bind; [apply tidy_np_new|]. intros. apply tidy_setitem.
  - intros. destruct (_ && _)%bool; [|apply pure_tidy, pure_ret]. apply tidy_bind; [apply pure_tidy, pure_sigmad2|]. intros. apply tidy_bind; [apply tidy_np_new|]. intros. apply tidy_setitem.
Qed.
Lemma tidy_deepcopy depth : forall o, tidy (@py_deepcopy N depth o).
Proof.
  assert (X : forall o, tidy (fun s => match nth_error (objects s) o with Some ob => Fine (N := N) s ob | None => Beyond end)) by (intros o s; destruct (nth_error (objects s) o); [apply tidies_refl|exact I]).
  induction depth as [|depth IH]; intros o; cbn [py_deepcopy]; (apply tidy_bind; [apply X|]; intros ob); (apply tidy_bind; [apply tidy_new_object|]; intros n); (apply tidy_bind; [apply pure_tidy, pure_get|]; intros s);
    (apply tidy_bind; [apply tidy_do_all; intros; apply tidy_bind; [apply pure_tidy, pure_np_get|]; intros; apply tidy_bind; [apply tidy_np_new|]; intros; apply tidy_setitem|]; intros); (destruct (has_ctype _); [|apply pure_tidy, pure_ret]); (apply tidy_bind; [apply pure_tidy, pure_attribute|]; intros).
  - intros s'. exact I.
  - apply tidy_bind; [apply IH|]. intros. apply tidy_bind; [apply tidy_set_obj|]. intros. apply pure_tidy, pure_ret.
Qed.
Lemma tidy_configure f : tidy (@configure N f). Proof. intros s. unfold configure. destruct (f (g_conf s)) as [c []]; try exact I; apply tidies_same; reflexivity. Qed.
Lemma tidy_set_verbosity o m : tidy (@set_verbosity N o m). Proof. apply tidy_bind; [apply tidy_modify; reflexivity|]. intros. apply tidy_set_obj. Qed.
Lemma tidy_statement p : tidy (statement (N := N) fuel suave1 suave12 p).
Proof.
  assert (X : forall m, tidy m -> tidy (@nothing N m)) by (intros m H; apply tidy_bind; [exact H|]; intros; apply pure_tidy, pure_ret).
  destruct p; cbn [statement]; try apply X; try (apply tidy_bind; [apply pure_tidy, pure_obj || apply pure_tidy, pure_regpt|]; intros).
  - apply tidy_bind; [apply tidy_new_object|]. intros. apply tidy_hold.
  - apply tidy_modify; reflexivity.
  - apply tidy_bind; [apply pure_tidy, pure_attribute|]. intros. apply tidy_hold.
  - apply tidy_bind; [destruct v; [apply tidy_np_new|apply tidy_bind; [apply pure_tidy, pure_obj|]; intros; apply pure_tidy, pure_getitem]|]. intros. apply tidy_setitem.
  - apply tidy_bind; [apply pure_tidy, pure_getitem|]. intros. apply tidy_np_set.
  - apply tidy_bind; [apply pure_tidy, pure_get|]. intros. apply tidy_bind; [unfold py_slice; apply tidy_bind; [apply pure_tidy, pure_beyond|]; intros; apply tidy_new_object|]. intros. apply tidy_hold.
  - apply tidy_bind; [unfold py_copy; apply tidy_bind; [apply tidy_new_object|]; intros; apply tidy_bind; [apply tidy_set_obj|]; intros; apply pure_tidy, pure_ret|]. intros. apply tidy_hold.
  - apply tidy_bind; [apply pure_tidy, pure_get|]. intros. apply tidy_bind; [apply tidy_deepcopy|]. intros. apply tidy_hold.
  - apply tidy_set_pk_lin.
  - apply tidy_bind; [apply pure_tidy, pure_obj|]. intros. apply tidy_set_spectrum_lin.
  - apply tidy_set_terms.
  - apply tidy_run.
  - apply tidy_pad_k.
  - apply pure_tidy, pure_find.
  - apply pure_tidy, pure_sigmad2.
  - apply tidy_configure.
  - apply tidy_configure.
  - apply tidy_bind; [apply tidy_configure|]. intros. apply tidy_set_verbosity.
  - apply tidy_set_verbosity.
  - apply tidy_bind; [apply pure_tidy, pure_obj|]. intros. apply tidy_bind; [apply pure_tidy, pure_size|]. intros. do 2 (apply tidy_bind; [apply pure_tidy, pure_getitem|]; intros). do 2 (apply tidy_bind; [apply pure_tidy, pure_pointer|]; intros). apply tidy_set_spectra_B.
  - apply tidy_run_terms_B.
Qed.
Lemma step_tidy p s : after (step fuel suave1 suave12 p s) (tidies s).
Proof. unfold step. pose proof (tidy_statement p s) as H. destruct (statement _ _ _ p s) as [s' v|e s'| |]; cbn; auto. Qed.
Lemma execute_clean ps : forall s s', (forall b, ~ cal s b) -> execute fuel suave1 suave12 ps s = Some s' -> forall b, ~ cal s' b.
Proof.
  induction ps as [|p ps IH]; intros s s' C E; cbn in E; [injection E as <-; exact C|]. pose proof (step_tidy p s) as H.
  destruct (step _ _ _ p s) as [s1 v|e s1| |]; try discriminate; cbn in H; (eapply IH; [|exact E]); intros b Hb; exact (C b (proj1 H b Hb)).
Qed.
Theorem nothing_allocated s b xs : reached fuel suave1 suave12 s -> nth_error (blocks s) b <> Some (Calloc, xs).
Proof. intros (ps & E) H. apply (execute_clean ps (fresh_process N) s) with (b := b); [|exact E|exists xs; exact H]. intros c (ys & Hc). destruct c; discriminate. Qed.
End Leak.
