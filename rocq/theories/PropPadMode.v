(** PropPadMode: C114, the parameter mode of pad_k.  Notions: SpecPad.v. *)
From Coq Require Import Reals ZArith List String Lia Lra Bool.
From Verif Require Import Base Num Common Registry PyTerms PyPad PyPadMode Spec SpecPy SpecPad ProofPy ProofPy7 ProofPad ProofPad2 ProofPad3 ProofPadMode.
Import ListNotations.
Local Open Scope R_scope.

(** The modes of numpy.pad *)
Definition documented : list string := ["constant"; "edge"; "linear_ramp"; "maximum"; "mean"; "median"; "minimum"; "reflect"; "symmetric"; "wrap"; "empty"]%string.
(** With the default mode the object is extended, *)
Theorem C114_constant cl b (c : columns RNum) (kk k : list R) (x : R) (kw : list (string * list R)) : one_dim cl = true -> complete cl c (List.length kk) -> getitem c "k" = Ok kk -> kk <> [] ->
  ascending k -> (exists v, In v k /\ nth (List.length kk - 1) kk 0 < v) ->
  NoDup (map fst kw) -> (forall y w, In (y, w) kw -> In y (fields cl) /\ y <> "k"%string /\ List.length w = List.length k) ->
  exists c', pad_k_mode (N := RNum) cl b c k "constant" x kw = (c', Done) /\ complete cl c' (List.length (extended kk k)) /\ getitem c' "k" = Ok (extended kk k) /\
    (forall y v w, getitem c y = Ok v -> In (y, w) kw -> getitem c' y = Ok (below_with kk k w ++ v ++ above_with kk k w)) /\
    forall y v, y <> "k"%string -> getitem c y = Ok v -> ~ In y (map fst kw) -> getitem c' y = Ok (repeat x (List.length (below kk k)) ++ v ++ repeat x (List.length (above kk k))).
Proof. rewrite (mode_constant (N := RNum) cl b c k x kw). exact (fun H1 HC Hk Hn HA HE => pad_with cl b c kk k x H1 HC Hk Hn HA HE kw). Qed.
Print Assumptions C114_constant.
(** with any other it raises and stays as it was, whatever its class, the wavenumbers and the numbers it contains; *)
Theorem C114_other N cl b (c : columns N) (kk k : list (T N)) mode x kw : getitem c "k" = Ok kk -> kk <> [] -> mode <> "constant"%string -> pad_k_mode cl b c k mode x kw = (c, Raised ValueError).
Proof. exact (mode_other cl b c kk k mode x kw). Qed.
Print Assumptions C114_other.
(** likewise for an object with a linear spectrum, before the linear spectrum is looked up. *)
Theorem C114_other_regpt N cl b (c : columns N) pkl (kk k : list (T N)) mode x im : getitem c "k" = Ok kk -> kk <> [] -> mode <> "constant"%string -> regpt_pad_k_mode cl b c pkl k mode x im = (c, Raised ValueError).
Proof. exact (regpt_other cl b c pkl kk k mode x im). Qed.
Print Assumptions C114_other_regpt.
(** So only one of the modes of numpy can be used. *)
Theorem C114_refuted : ~ (forall mode (c : columns RNum) (kk k : list R), In mode documented -> complete CLin c (List.length kk) -> getitem c "k" = Ok kk -> kk <> [] -> ascending k -> (exists v, In v k /\ nth (List.length kk - 1) kk 0 < v) ->
  exists c', pad_k_mode (N := RNum) CLin false c k mode (0 : R) [] = (c', Done)).
Proof.
  intros H. destruct (H "edge"%string (filled CLin 2 ramp) [INR 0 + 1; INR 1 + 1] [/ 2; 5]) as (c' & E).
  - cbn; tauto.
  - apply (filled_complete CLin 2 ramp).
  - reflexivity.
  - discriminate.
  - intros [|[|i]] [|[|j]] Hij; cbn in *; try lia; lra.
  - exists 5. split; [cbn; tauto|cbn; lra].
  - rewrite (C114_other RNum CLin false (filled CLin 2 ramp) [INR 0 + 1; INR 1 + 1] [/ 2; 5] "edge" 0 []) in E; [discriminate|reflexivity|discriminate|discriminate].
Qed.
Print Assumptions C114_refuted.
Example C114_ex : let c := filled C1Loop 2 ramp in let kk := [INR 0 + 1; INR 1 + 1] in let k := [/ 2; 5] in let kw := [("pk_lin", [7; 8])]%string in
  exists c', pad_k_mode (N := RNum) C1Loop false c k "constant" (0 : R) kw = (c', Done) /\ getitem c' "k" = Ok (extended kk k) /\ pad_k_mode (N := RNum) C1Loop false c k "wrap" (0 : R) kw = (c, Raised ValueError).
Proof.
  intros c kk k kw. destruct (C114_constant C1Loop false c kk k 0 kw) as (c' & E & _ & K & _).
  - reflexivity.
  - apply (filled_complete C1Loop 2 ramp).
  - reflexivity.
  - discriminate.
  - intros [|[|i]] [|[|j]] Hij; cbn in *; try lia; lra.
  - exists 5. split; [cbn; tauto|cbn; lra].
  - repeat constructor. intros [].
  - intros y w [Hy|[]]. injection Hy as <- <-. split; [cbn; tauto|]. split; [discriminate|reflexivity].
  - exists c'. split; [exact E|]. split; [exact K|]. apply (C114_other RNum C1Loop false c kk); [reflexivity|discriminate|discriminate].
Qed.
