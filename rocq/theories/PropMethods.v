(** PropMethods: C116, pk_interp, sigmav, sigmar and sigma8 of every class, with the keywords Dgrowth and sigmad2.  Notions: SpecMethods.v. *)
From Coq Require Import Reals ZArith List String Lia Lra Bool.
From Verif Require Import Base Num Common Registry PyTerms PyMethods Spec SpecPy SpecMethods ProofPy ProofPy7 ProofMethods.
Import ListNotations.
Local Open Scope R_scope.

(** For linear, no-wiggle and RegPT objects they are those of the spectrum of the object at the growth factor D, with the dispersion asked for. *)
Theorem C116_interp cl (c : columns RNum) n (D : R) g left right : complete cl c n -> suits g n -> offers cl g -> (1 <= n)%nat -> (forall K, getitem c "k" = Ok K -> increasing K) ->
  exists f, (forall k, pk_interp_of (N := RNum) cl c k left right D g = Ok (f k)) /\ interpolates (entry c "k") (spectrum_of cl c D g) n left right f.
Proof. exact (fun HC HS HO => interp_of_val cl c n D g HC HS HO left right). Qed.
Print Assumptions C116_interp.
Theorem C116_sigmav cl (c : columns RNum) n (D : R) g : complete cl c n -> suits g n -> offers cl g ->
  sigmav_of (N := RNum) cl c D g = Ok (sqrt (trapz (map (entry c "k") (seq 0 n)) (map (spectrum_of cl c D g) (seq 0 n)) / (6 * PI ^ 2))).
Proof. exact (fun HC HS HO => sigmav_of_val cl c n D g HC HS HO). Qed.
Print Assumptions C116_sigmav.
Theorem C116_sigmar cl (c : columns RNum) n (r D : R) g : complete cl c n -> suits g n -> offers cl g ->
  sigmar_of (N := RNum) cl c r D g = Ok (sqrt (variance (entry c "k") (spectrum_of cl c D g) n r)).
Proof. exact (fun HC HS HO => sigmar_of_val cl c n D g HC HS HO r). Qed.
Print Assumptions C116_sigmar.
Theorem C116_sigma8 cl (c : columns RNum) n (D : R) g : complete cl c n -> suits g n -> offers cl g ->
  sigma8_of (N := RNum) cl c D g = Ok (sqrt (variance (entry c "k") (spectrum_of cl c D g) n 8)).
Proof. exact (fun HC HS HO => sigmar_of_val cl c n D g HC HS HO 8). Qed.
Print Assumptions C116_sigma8.
(** Where the spectrum is not negative, the roots are real; *)
Theorem C116_real cl (c : columns RNum) n (r D : R) g : complete cl c n -> suits g n -> offers cl g -> (forall K, getitem c "k" = Ok K -> increasing K) -> (forall i, (i < n)%nat -> 0 <= spectrum_of cl c D g i) ->
  (exists s, sigmav_of (N := RNum) cl c D g = Ok s /\ 0 <= s /\ s ^ 2 = trapz (map (entry c "k") (seq 0 n)) (map (spectrum_of cl c D g) (seq 0 n)) / (6 * PI ^ 2)) /\
  exists s, sigmar_of (N := RNum) cl c r D g = Ok s /\ 0 <= s /\ s ^ 2 = variance (entry c "k") (spectrum_of cl c D g) n r.
Proof. exact (fun HC HS HO HI HP => conj (sigmav_square cl c n D g HC HS HO HI HP) (sigmar_square cl c n D g HC HS HO r HI HP)). Qed.
Print Assumptions C116_real.
(** this holds for the 1-loop spectrum of one field, whatever the dispersion and the growth factor. *)
Theorem C116_auto (c : columns RNum) n (D : R) g : (forall i, (i < n)%nat -> entry c "gamma1a_1loop" i = entry c "gamma1b_1loop" i /\ 0 <= entry c "pk_lin" i /\ 0 <= entry c "pk_gamma2_tree_tree" i) ->
  forall i, (i < n)%nat -> 0 <= spectrum_of C1Loop c D g i.
Proof. exact (auto_spectrum C1Loop c n D g eq_refl). Qed.
Print Assumptions C116_auto.
(** Bias1Loop inherits the methods, but has no pk: all raise. *)
Theorem C116_bias N (c : columns N) n (k left right r D : T N) g : complete CBias c n ->
  pk_interp_of CBias c k left right D g = Err (PyExc AttributeError) /\ sigmav_of CBias c D g = Err (PyExc AttributeError) /\
  sigmar_of CBias c r D g = Err (PyExc AttributeError) /\ sigma8_of CBias c D g = Err (PyExc AttributeError).
Proof.
  intros HC. destruct (getitem_complete CBias c n "k" HC ltac:(cbn; tauto)) as (K & E & _). unfold pk_interp_of, sigmav_of, sigma8_of, sigmar_of, pk_interp, sigmav, sigmar. rewrite E. cbn [pk_of bind]. repeat split.
Qed.
Print Assumptions C116_bias.
(** The linear classes raise when they are given a dispersion. *)
Theorem C116_linear N cl (c : columns N) n (k left right r D : T N) g : cl = CLin \/ cl = CNoWiggle -> complete cl c n -> g <> Omitted ->
  pk_interp_of cl c k left right D g = Err (PyExc TypeError) /\ sigmav_of cl c D g = Err (PyExc TypeError) /\
  sigmar_of cl c r D g = Err (PyExc TypeError) /\ sigma8_of cl c D g = Err (PyExc TypeError).
Proof.
  intros HL HC Hg. destruct (getitem_complete cl c n "k" HC ltac:(destruct cl; cbn; tauto)) as (K & E & _). unfold pk_interp_of, sigmav_of, sigma8_of, sigmar_of, pk_interp, sigmav, sigmar. rewrite E.
  destruct HL as [-> | ->]; destruct g; try congruence; cbn [pk_of bind]; repeat split.
Qed.
Print Assumptions C116_linear.
(** So not every object which inherits sigmav gives it. *)
Theorem C116_refuted : ~ (forall cl (c : columns RNum) n (D : R), complete cl c n -> one_dim cl = true -> exists s, sigmav_of (N := RNum) cl c D Omitted = Ok s).
Proof.
  intros H. destruct (H CBias (filled CBias 3 ramp) 3%nat 1 (filled_complete CBias 3 ramp) eq_refl) as (s & E).
  rewrite (proj1 (proj2 (C116_bias RNum (filled CBias 3 ramp) 3 0 0 0 0 1 Omitted (filled_complete CBias 3 ramp)))) in E. discriminate.
Qed.
Print Assumptions C116_refuted.
Example C116_ex : let c := filled C1Loop 3 ramp in complete C1Loop c 3 /\ suits (Number 2) 3 /\ suits (Array [1; 2; 3]) 3 /\ offers C1Loop (Number 2) /\ (forall K, getitem c "k" = Ok K -> increasing K) /\
  (forall i, (i < 3)%nat -> entry c "gamma1a_1loop" i = entry c "gamma1b_1loop" i /\ 0 <= entry c "pk_lin" i /\ 0 <= entry c "pk_gamma2_tree_tree" i) /\
  exists s, sigmav_of (N := RNum) C1Loop c 1 (Number 2) = Ok s /\ 0 <= s.
Proof.
  intros c. assert (A : forall i, (i < 3)%nat -> entry c "gamma1a_1loop" i = entry c "gamma1b_1loop" i /\ 0 <= entry c "pk_lin" i /\ 0 <= entry c "pk_gamma2_tree_tree" i).
  { intros i Hi. unfold c. rewrite !filled_entry by (cbn; tauto || lia). unfold ramp. pose proof (pos_INR i). repeat split; lra. }
  assert (G : forall K, getitem c "k" = Ok K -> increasing K) by (intros K HK; apply (ramp_grid C1Loop 3 K HK)). pose proof (filled_complete C1Loop 3 ramp) as HC.
  split; [exact HC|]. split; [exact I|]. split; [left; reflexivity|]. split; [exact I|]. split; [exact G|]. split; [exact A|].
  destruct (C116_real C1Loop c 3 8 1 (Number 2) HC I I G (C116_auto c 3 1 (Number 2) A)) as ((s & E & P & _) & _). exists s. split; [exact E|exact P].
Qed.
