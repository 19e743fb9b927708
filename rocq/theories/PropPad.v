(** PropPad: pad_k (C92).  Notions: SpecPad.v. *)
From Coq Require Import Reals ZArith List String Lia Lra Bool.
From Verif Require Import Base Num Common Registry PyTerms PyPad Spec SpecPy SpecPad ProofPy ProofPy7 ProofPad ProofPad2 ProofPad3.
Import ListNotations.
Local Open Scope R_scope.

(** ** C92: pad_k gives the new wavenumbers linear theory *)
(** Columns given by keyword, parallel to [k], supply the values at the new wavenumbers; the other columns get the constant. *)
Theorem C92_keywords cl b (c : columns RNum) (kk k : list R) (x : R) (kw : list (string * list R)) : one_dim cl = true -> complete cl c (List.length kk) -> getitem c "k" = Ok kk -> kk <> [] ->
  ascending k -> (exists v, In v k /\ nth (List.length kk - 1) kk 0 < v) ->
  NoDup (map fst kw) -> (forall y w, In (y, w) kw -> In y (fields cl) /\ y <> "k"%string /\ List.length w = List.length k) ->
  exists c', pad_k_with (N := RNum) cl b c k x kw = (c', Done) /\ complete cl c' (List.length (extended kk k)) /\ getitem c' "k" = Ok (extended kk k) /\
    (forall y v w, getitem c y = Ok v -> In (y, w) kw -> getitem c' y = Ok (below_with kk k w ++ v ++ above_with kk k w)) /\
    forall y v, y <> "k"%string -> getitem c y = Ok v -> ~ In y (map fst kw) -> getitem c' y = Ok (repeat x (List.length (below kk k)) ++ v ++ repeat x (List.length (above kk k))).
Proof. exact (fun H1 HC Hk Hn HA HE => pad_with cl b c kk k x H1 HC Hk Hn HA HE kw). Qed.
Print Assumptions C92_keywords.
(** An object with a linear spectrum: pk_lin is looked up and sigmad2 computed anew at all wavenumbers, old and new *)
Theorem C92_recomputed cl b (c : columns RNum) (kk k : list R) (x : R) (K P : list R) : one_dim cl = true -> has_ctype cl = true -> complete cl c (List.length kk) -> getitem c "k" = Ok kk -> kk <> [] ->
  ascending k -> (exists v, In v k /\ nth (List.length kk - 1) kk 0 < v) -> ascending kk -> List.length P = List.length K -> (2 <= zlen K < 2 ^ 62)%Z -> increasing K ->
  exists c' ps ss, regpt_pad_k (N := RNum) cl b c (mk_table (N := RNum) K P) k x "poly" = (c', Done) /\ complete cl c' (List.length (extended kk k)) /\
    getitem c' "k" = Ok (extended kk k) /\ getitem c' "pk_lin" = Ok ps /\ getitem c' "sigmad2" = Ok ss /\
    Forall2 (looks_up K P) (extended kk k) ps /\ Forall2 (disperses K P (1 / 2)) (extended kk k) ss /\
    forall y v, ~ In y ["k"; "pk_lin"; "sigmad2"]%string -> getitem c y = Ok v -> getitem c' y = Ok (repeat x (List.length (below kk k)) ++ v ++ repeat x (List.length (above kk k))).
Proof. exact (pad_poly cl b c kk k x K P). Qed.
Print Assumptions C92_recomputed.
(** so the old rows keep their values if the run used this interpolation and the cutoff 1/2, *)
Theorem C92_keeps cl b (c : columns RNum) (kk k : list R) (x : R) (K P pl sg : list R) : one_dim cl = true -> has_ctype cl = true -> complete cl c (List.length kk) -> getitem c "k" = Ok kk -> kk <> [] ->
  ascending k -> (exists v, In v k /\ nth (List.length kk - 1) kk 0 < v) -> ascending kk -> List.length P = List.length K -> (2 <= zlen K < 2 ^ 62)%Z -> increasing K ->
  getitem c "pk_lin" = Ok pl -> getitem c "sigmad2" = Ok sg -> Forall2 (looks_up K P) kk pl -> Forall2 (disperses K P (1 / 2)) kk sg ->
  exists c' p q s t, regpt_pad_k (N := RNum) cl b c (mk_table (N := RNum) K P) k x "poly" = (c', Done) /\
    getitem c' "pk_lin" = Ok (p ++ pl ++ q) /\ getitem c' "sigmad2" = Ok (s ++ sg ++ t) /\ List.length p = List.length (below kk k) /\ List.length s = List.length (below kk k).
Proof. exact (fun H1 H2 H3 H4 H5 H6 H7 H8 H9 H10 H11 => pad_keeps cl b c kk k x K P H1 H2 H3 H4 H5 H6 H7 H8 H9 H10 H11 pl sg). Qed.
Print Assumptions C92_keeps.
(** and not with another cutoff: pad_k forgets what set_running_uvcutoff had set. *)
Theorem C92_cutoff_refuted : ~ (forall (c : columns RNum) (kk k K P : list R) (uv : R) sg, complete C1Loop c (List.length kk) -> getitem c "k" = Ok kk -> kk <> [] ->
  ascending k -> (exists v, In v k /\ nth (List.length kk - 1) kk 0 < v) -> ascending kk -> List.length P = List.length K -> (2 <= zlen K < 2 ^ 62)%Z -> increasing K -> 0 < uv ->
  getitem c "sigmad2" = Ok sg -> Forall2 (disperses K P uv) kk sg ->
  exists c' s t, regpt_pad_k (N := RNum) C1Loop false c (mk_table (N := RNum) K P) k (0 : R) "poly" = (c', Done) /\ getitem c' "sigmad2" = Ok (s ++ sg ++ t) /\ List.length s = List.length (below kk k)).
Proof. exact pad_cutoff. Qed.
Print Assumptions C92_cutoff_refuted.
(** At a new wavenumber the spectrum is the damped linear one, with either interpolation *)
Theorem C92_spectrum_1loop b (c : columns RNum) (kk k : list R) (pkl : Pk RNum) (im : string) (ps ss : list R) (D : R) (i : nat) : getitem c "k" = Ok kk -> kk <> [] ->
  ascending k -> (exists v, In v k /\ nth (List.length kk - 1) kk 0 < v) ->
  find_pk (N := RNum) pkl (extended kk k) (if (im =? "poly")%string then POLY else LIN) = Ok ps -> calc_running_sigmad2 (N := RNum) pkl (extended kk k) (1 / 2) = Ok ss ->
  List.length ps = List.length (extended kk k) -> List.length ss = List.length (extended kk k) ->
  (i < List.length (extended kk k))%nat -> (i < List.length (below kk k) \/ List.length (below kk k) + List.length kk <= i)%nat -> complete C1Loop c (List.length kk) ->
  exists c' v, regpt_pad_k (N := RNum) C1Loop b c pkl k (0 : R) im = (c', Done) /\ pk_1loop (N := RNum) c' D None = Ok v /\
    nth i v 0 = damped_1loop D (nth i (extended kk k) 0) (nth i ss 0) (nth i ps 0).
Proof. exact (new_1loop b c kk k pkl im ps ss D i). Qed.
Print Assumptions C92_spectrum_1loop.
Theorem C92_spectrum_2loop b (c : columns RNum) (kk k : list R) (pkl : Pk RNum) (im : string) (ps ss : list R) (D : R) (i : nat) : getitem c "k" = Ok kk -> kk <> [] ->
  ascending k -> (exists v, In v k /\ nth (List.length kk - 1) kk 0 < v) ->
  find_pk (N := RNum) pkl (extended kk k) (if (im =? "poly")%string then POLY else LIN) = Ok ps -> calc_running_sigmad2 (N := RNum) pkl (extended kk k) (1 / 2) = Ok ss ->
  List.length ps = List.length (extended kk k) -> List.length ss = List.length (extended kk k) ->
  (i < List.length (extended kk k))%nat -> (i < List.length (below kk k) \/ List.length (below kk k) + List.length kk <= i)%nat -> complete C2Loop c (List.length kk) ->
  exists c' v, regpt_pad_k (N := RNum) C2Loop b c pkl k (0 : R) im = (c', Done) /\ pk_2loop (N := RNum) c' D None = Ok v /\
    nth i v 0 = damped_2loop D (nth i (extended kk k) 0) (nth i ss 0) (nth i ps 0).
Proof. exact (new_2loop b c kk k pkl im ps ss D i). Qed.
Print Assumptions C92_spectrum_2loop.
Example C92_ex : let c := filled C1Loop 2 ramp in let kk := [INR 0 + 1; INR 1 + 1] in let k := [/2; 5] in exists ps ss,
  complete C1Loop c (List.length kk) /\ getitem c "k" = Ok kk /\ ascending k /\ ascending kk /\ (exists v, In v k /\ nth (List.length kk - 1) kk 0 < v) /\ increasing [2; 4] /\
  find_pk (N := RNum) (mk_table (N := RNum) [2; 4] [1; 1]) (extended kk k) POLY = Ok ps /\ calc_running_sigmad2 (N := RNum) (mk_table (N := RNum) [2; 4] [1; 1]) (extended kk k) (1 / 2) = Ok ss /\
  List.length ps = List.length (extended kk k) /\ List.length ss = List.length (extended kk k) /\ List.length (below kk k) = 1%nat /\ List.length (extended kk k) = 4%nat.
Proof. exact pad_example. Qed.
