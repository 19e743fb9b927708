(** ProofPadMode: the mode of pad_k (C114). *)
From Coq Require Import ZArith Lia List String Bool.
From Verif Require Import Base Num BaseFacts Common Registry PyTerms PyPad PyPadMode SpecPy ProofPy.
Import ListNotations.
Local Open Scope num_scope.

Section Mode.
Context {N : Num}.
Lemma each_field_ext f g (c : columns N) l : (forall c key, f c key = g c key) -> each_field f c l = each_field g c l.
Proof.
  intros H. unfold each_field. generalize (c, Done). induction l as [|y l IH]; intros o; [reflexivity|]. cbn [fold_left]. rewrite IH. f_equal. destruct o as [d []]; try reflexivity. apply H.
Qed.
Lemma mode_constant cl b (c : columns N) k x kw : pad_k_mode cl b c k "constant" x kw = pad_k_with cl b c k x kw.
Proof.
  unfold pad_k_mode, pad_k_with, pad_k. destruct (getitem c "k") as [kk|[]]; cbn [lift]; try reflexivity. destruct (element kk 0) as [k0|[]]; cbn [lift]; try reflexivity. destruct (element kk (zlen kk - 1)) as [k1|[]]; cbn [lift]; try reflexivity.
  set (s := List.length (filter (fun v => v <? k0) k)). set (e := List.length (filter (fun v => v >? k1) k)).
  rewrite (each_field_ext _ (fun c key => lift c (getitem c key) (fun v =>
          match ncomp cl key with
          | Some _ => if b then (c, Raised ValueError) else (setitem c key (pad v s e x), Done)
          | None => (setitem c key (pad v s e x), Done)
          end))) by (intros d key; destruct (getitem d key) as [v|[]]; cbn [lift]; try reflexivity; destruct (ncomp cl key), b; reflexivity).
  destruct (each_field _ c (fields cl)) as [d []]; try reflexivity. destruct (getitem d "k") as [v|[]]; cbn [lift]; try reflexivity.
  destruct (assign_first v s (firstn s k)) as [v1|[]]; cbn [lift]; try reflexivity. destruct (assign_last v1 e (last_slice k e)) as [v2|[]]; reflexivity.
Qed.
Lemma each_raised (f : columns N -> string -> columns N * outcome) c l e : fold_left (fun o key => match o with (c, Done) => f c key | _ => o end) l (c, Raised e) = (c, Raised e).
Proof. induction l as [|y l IH]; [reflexivity|exact IH]. Qed.
Lemma fields_k cl : exists l, fields cl = "k"%string :: l /\ ncomp cl "k" = None.
Proof. destruct cl; eexists; split; reflexivity. Qed.
Lemma mode_other cl b (c : columns N) kk k mode x kw : getitem c "k" = Ok kk -> kk <> [] -> mode <> "constant"%string -> pad_k_mode cl b c k mode x kw = (c, Raised ValueError).
Proof.
  intros HK Hn Hm. unfold pad_k_mode. rewrite HK. cbn [lift]. destruct kk as [|a kk]; [congruence|].
  assert (E : forall i, (0 <= i < zlen (a :: kk))%Z -> exists y, element (a :: kk) i = Ok y).
  { intros i Hi. unfold element. rewrite (rd_ok a (a :: kk) i Hi). eexists. reflexivity. }
  assert (0 < zlen (a :: kk))%Z by (unfold zlen; cbn [List.length]; lia). destruct (E 0%Z) as (k0 & ->); [lia|]. destruct (E (zlen (a :: kk) - 1)%Z) as (k1 & ->); [lia|]. cbn [lift].
  destruct (fields_k cl) as (l & -> & NC). unfold each_field. cbn [fold_left]. rewrite HK. cbn [lift]. rewrite NC. unfold np_pad. rewrite (proj2 (String.eqb_neq _ _) Hm). destruct b; cbn [lift]; rewrite each_raised; reflexivity.
Qed.
Lemma regpt_constant cl b (c : columns N) pkl k x im : regpt_pad_k_mode cl b c pkl k "constant" x im = regpt_pad_k cl b c pkl k x im.
Proof.
  unfold regpt_pad_k_mode, regpt_pad_k. rewrite mode_constant. unfold pad_k_with. destruct (pad_k cl b c k x) as [d o] eqn:E. unfold pad_k in E. 
  destruct (getitem c "k") as [kk|[]]; cbn [lift] in E |- *; try (injection E as <- <-; reflexivity). destruct (element kk 0) as [k0|[]]; cbn [lift] in E |- *; try (injection E as <- <-; reflexivity).
  destruct (element kk (zlen kk - 1)) as [k1|[]]; cbn [lift] in E |- *; try (injection E as <- <-; reflexivity). destruct o; reflexivity.
Qed.
Lemma regpt_other cl b (c : columns N) pkl kk k mode x im : getitem c "k" = Ok kk -> kk <> [] -> mode <> "constant"%string -> regpt_pad_k_mode cl b c pkl k mode x im = (c, Raised ValueError).
Proof. intros H1 H2 H3. unfold regpt_pad_k_mode. rewrite (mode_other cl b c kk k mode x [] H1 H2 H3). reflexivity. Qed.
End Mode.
