(** ProofProcess31: examples for the claims about processes, continued. *)
From Coq Require Import ZArith List String Bool Lia Permutation Reals Lra.
From Verif Require Import Base Num BaseFacts Common Kernels Integrals Registry SpecRegistry ProofRegistry Threads SpecThreads SpecScratch SpecTable ProofCommon2
  ProofThreads8 PyTerms Process SpecProcess ProofProcess ProofProcess6 ProofProcess8 ProofProcess14 ProofProcess15 ProofProcess16 ProofProcess17 ProofProcess21 ProofProcess22 ProofProcess25 ProofProcess29 ProofProcess30.
Import ListNotations.
Local Open Scope string_scope.

(** ** Programs, evaluated *)
Section Evaluated.
Context {N : Num}.
Variables (fuel : nat) (suave1 : (list (T N) -> res (T N)) -> res (T N)) (suave12 : (list (T N) -> res (list (T N))) -> res (list (T N))).
Variables (a b c d e f g : T N).
Lemma program_1 cl sl : slot_of cl = Some sl -> exists s0 : state N, execute fuel suave1 suave12 [New cl; Set_pk_lin 0 [a; b] [c; d]; Set_terms 0 [e; f; g]] (fresh_process N) = Some s0 /\ vars s0 = [0%nat] /\
  g_conf s0 = fresh_settings N /\ cp_n (g_dt s0) = 0%Z /\ cp_n (g_tt s0) = 0%Z /\ (forall a, assoc (dict_of s0 0) "k" = Some a -> only_at s0 0 "k" (a_buf a)) /\ lin_of s0 0 = Some 1%nat /\ class_of s0 1 = Some CLin /\ class_of s0 0 = Some cl.
Proof.
  intros Sl. destruct cl; try discriminate Sl; eexists; (split; [vm_compute; reflexivity|]); do 4 (split; [reflexivity|]). all: split; [|repeat split].
  all: intros r E; injection E as <-; intros y z r Hb Eb; unfold dict_of in Hb; destruct y as [|[|y]]; cbn in Hb; [| |destruct y; destruct Hb].
  all: repeat (destruct Hb as [Hb|Hb]; [injection Hb as <- <-; cbn in Eb; first [discriminate Eb|split; [reflexivity|exists 0%nat; do 2 eexists; split; [left; reflexivity|]; split; [reflexivity|]; split; reflexivity]]|]); try contradiction.
Qed.
Lemma program_2 cl : In cl [C1Loop; C2Loop; CBias; CA2] -> exists s0 : state N, execute fuel suave1 suave12 [New cl; Set_item 0 "k" (Values [g]); New cl; Set_pk_lin 1 [a; b] [c; d]; Set_terms 1 [e; f; g]] (fresh_process N) = Some s0 /\ vars s0 = [1; 0]%nat /\
  g_conf s0 = fresh_settings N /\ (forall y r, In (y, r) (dict_of s0 0) -> ~ used_by s0 [1%nat] (a_buf r)) /\ column_of s0 0 "k" = Some [g] /\ class_of s0 0 = Some cl /\ class_of s0 1 = Some cl /\ lin_of s0 1 = Some 2%nat.
Proof.
  intros Sl. cbn in Sl. destruct Sl as [<-|[<-|[<-|[<-|[]]]]]; eexists; (split; [vm_compute; reflexivity|]); do 2 (split; [reflexivity|]). all: split; [|repeat split].
  all: intros y r Hr (o & z & q & Ho & Hq & Eq); destruct Ho as [<-|[]]; unfold dict_of in Hr, Hq; cbn in Hr, Hq; destruct Hr as [Hr|[]]; injection Hr as <- <-.
  all: repeat (destruct Hq as [Hq|Hq]; [injection Hq as <- <-; cbn in Eq; discriminate Eq|]); try contradiction.
Qed.
Lemma program_3 : exists s0 s1 s2 : state N, execute fuel suave1 suave12 [New C1Loop; New C1Loop] (fresh_process N) = Some s0 /\ vars s0 = [1; 0]%nat /\ class_of s0 1 = Some C1Loop /\
  step fuel suave1 suave12 (Set_pk_lin 1 [a; b] [c; d]) s0 = Fine s1 [] /\ step fuel suave1 suave12 (Drop 1) s1 = Fine s2 [] /\ ~ In 1%nat (reachable s2) /\ In 0%nat (vars s2) /\ class_of s2 0 = Some C1Loop.
Proof.
  do 3 eexists. split; [vm_compute; reflexivity|]. do 2 (split; [reflexivity|]). split; [vm_compute; reflexivity|]. split; [vm_compute; reflexivity|]. split; [|split; [left; reflexivity|reflexivity]]. cbn. intuition discriminate.
Qed.
Lemma strided_example (k0 k1 k2 k3 p0 p1 p2 p3 : T N) : exists (s : state N) ka kr,
  execute fuel suave1 suave12 [New CLin; Set_item 0 "k" (Values [k0; k1; k2; k3]); Set_item 0 "pk" (Values [p0; p1; p2; p3]); New C1Loop; Set_verbosity 1 "quiet"; Slice 0 0 2 2; Slice 0 3 (-1) 4] (fresh_process N) = Some s /\
  vars s = [3; 2; 1; 0]%nat /\ g_verbose s = QUIET /\ assoc (dict_of s 2) "k" = Some ka /\ assoc (dict_of s 3) "k" = Some kr /\
  elements s ka = [k0; k2] /\ fits s ka /\ window s ka = [k0; k1] /\ elements s kr = [k3; k2; k1; k0] /\ ~ fits s kr.
Proof.
  do 3 eexists. split; [vm_compute; reflexivity|]. do 2 (split; [reflexivity|]). do 2 (split; [vm_compute; reflexivity|]). split; [reflexivity|]. split; [vm_compute; discriminate|]. split; [reflexivity|]. split; [reflexivity|]. vm_compute. intros X. apply X. reflexivity.
Qed.
Lemma program_4 cl sl : slot_of cl = Some sl -> exists s0 : state N, execute fuel suave1 suave12 [New cl] (fresh_process N) = Some s0 /\ vars s0 = [0%nat] /\ class_of s0 0 = Some cl /\ g_verbose s0 = INFO.
Proof. intros Sl. destruct cl; try discriminate Sl; eexists; (split; [reflexivity|]); repeat split. Qed.
Lemma program_5 cl sl : slot_of cl = Some sl -> exists s0 : state N, execute fuel suave1 suave12 [New cl; Set_item 0 "k" (Values [g]); New cl] (fresh_process N) = Some s0 /\ vars s0 = [1; 0]%nat /\ class_of s0 1 = Some cl.
Proof. intros Sl. destruct cl; try discriminate Sl; eexists; (split; [vm_compute; reflexivity|]); repeat split. Qed.
End Evaluated.

