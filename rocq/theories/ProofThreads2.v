(** ProofThreads2: one parallel region. *)
From Coq Require Import ZArith List String Bool Lia Permutation.
From Verif Require Import Base Num Common Kernels Integrals Registry Threads SpecThreads ProofThreads SpecLoops SpecScratch ProofScratch ProofScratch2 ProofScratch3.
Import ListNotations.
Local Open Scope string_scope.

Lemma run_bind {N A B} (p : prog N A) (f : A -> prog N B) : forall h, run (pbind p f) h = match run p h with inl (a, h') => run (f a) h' | inr e => inr e end.
Proof. induction p as [a|l k IH|l v p IH|e]; intros h; cbn; try reflexivity; destruct (h l); auto. Qed.

(** Cells written one after the other. *)
Fixpoint put_all {N} (ls : list loc) (xs : list (T N)) (h : heap N) : heap N :=
  match ls, xs with l :: ls, x :: xs => put_all ls xs (hupd h l (VNum x)) | _, _ => h end.
Lemma put_all_other {N} ls : forall (xs : list (T N)) h l, ~ In l ls -> put_all ls xs h l = h l.
Proof. induction ls as [|c ls IH]; intros [|x xs] h l H; cbn in *; try reflexivity. rewrite IH by tauto. apply hupd_other. tauto. Qed.
Lemma put_all_stored {N} ls : forall (xs : list (T N)) h, NoDup ls -> List.length xs = List.length ls -> stored (put_all ls xs h) ls xs.
Proof.
  unfold stored. induction ls as [|c ls IH]; intros [|x xs] h D L; cbn in *; try discriminate; [reflexivity|]. inversion D as [|? ? D1 D2]. subst.
  rewrite put_all_other by exact D1. rewrite hupd_same. f_equal. apply IH; [exact D2|congruence].
Qed.
Lemma put_all_present {N} ls : forall (xs : list (T N)) h l, h l <> None -> put_all ls xs h l <> None.
Proof.
  induction ls as [|c ls IH]; intros [|x xs] h l H; cbn in *; try exact H. apply IH. destruct (loc_eqb_spec c l) as [->|E]; [rewrite hupd_same; discriminate|rewrite hupd_other by exact E; exact H].
Qed.
Lemma put_all_put_all {N} ls : forall (xs ys : list (T N)) h l, List.length ys = List.length ls -> put_all ls ys (put_all ls xs h) l = put_all ls ys h l.
Proof.
  assert (A : forall ls (ys : list (T N)) h g l, List.length ys = List.length ls -> (forall l, ~ In l ls -> h l = g l) -> put_all ls ys h l = put_all ls ys g l).
  { clear. induction ls as [|c ls IH]; intros [|y ys] h g l L H; cbn in *; try discriminate; [apply H; tauto|]. apply IH; [congruence|]. intros l' Hl.
    destruct (loc_eqb_spec c l') as [->|E]; [rewrite !hupd_same; reflexivity|rewrite !hupd_other by exact E; apply H; tauto]. }
  intros xs ys h l L. apply A; [exact L|]. intros l' Hl. apply put_all_other, Hl.
Qed.
Lemma stored_nth {N} (h : heap N) ls xs i l : stored h ls xs -> nth_error ls i = Some l -> exists x, nth_error xs i = Some x /\ h l = Some (VNum x).
Proof.
  intros S E. apply (map_nth_error h) in E. rewrite S in E. rewrite nth_error_map in E. destruct (nth_error xs i) as [x|]; [|discriminate]. exists x. cbn in E. split; congruence.
Qed.
Lemma stored_ext {N} (h h' : heap N) ls xs : (forall l, In l ls -> h' l = h l) -> stored h ls xs -> stored h' ls xs.
Proof. intros E S. unfold stored in *. rewrite <- S. apply map_ext_in, E. Qed.
Lemma stored_present {N} (h : heap N) ls xs l : stored h ls xs -> In l ls -> h l <> None.
Proof. intros S H. apply In_nth_error in H as (i & H). destruct (stored_nth h ls xs i l S H) as (x & _ & E). congruence. Qed.
Lemma stored_length {N} (h : heap N) ls xs : stored h ls xs -> List.length xs = List.length ls.
Proof. intros S. apply (f_equal (@List.length _)) in S. rewrite !map_length in S. congruence. Qed.

(** ** Vocabulary *)
Section Steps.
Context {N : Num}.
Variables (own : nat -> loc -> Prop) (common : loc -> Prop) (cv : loc -> value N).
Notation wp := (wp own common cv).
Definition can_read (t : nat) (h : heap N) (l : loc) : Prop := own t l \/ readonly own common l \/ (common l /\ h l = Some (cv l)).
Lemma wp_load_num t h l x (Q : _ -> heap N -> Prop) : can_read t h l -> h l = Some (VNum x) -> Q x h -> wp t (load_num l) h Q.
Proof. intros C E H. cbn. split; [exact C|]. rewrite E. exact H. Qed.
Lemma wp_load_pk t h l x (Q : _ -> heap N -> Prop) : can_read t h l -> h l = Some (VPk x) -> Q x h -> wp t (load_pk l) h Q.
Proof. intros C E H. cbn. split; [exact C|]. rewrite E. exact H. Qed.
Lemma wp_load_q t h l x (Q : _ -> heap N -> Prop) : can_read t h l -> h l = Some (VQ x) -> Q x h -> wp t (load_q l) h Q.
Proof. intros C E H. cbn. split; [exact C|]. rewrite E. exact H. Qed.
Lemma wp_load_mu t h l x (Q : _ -> heap N -> Prop) : can_read t h l -> h l = Some (VMu x) -> Q x h -> wp t (load_mu l) h Q.
Proof. intros C E H. cbn. split; [exact C|]. rewrite E. exact H. Qed.
Lemma wp_attempt {A} t h (r : res A) a (Q : _ -> heap N -> Prop) : r = Ok a -> Q a h -> wp t (attempt r) h Q.
Proof. intros -> H. exact H. Qed.
Lemma wp_store t h l v (Q : _ -> heap N -> Prop) : own t l -> h l <> None -> Q tt (hupd h l v) -> wp t (store l v) h Q.
Proof. intros O P H. cbn. auto. Qed.
Lemma wp_store_common t h l (Q : _ -> heap N -> Prop) : common l -> h l <> None -> Q tt (hupd h l (cv l)) -> wp t (store l (cv l)) h Q.
Proof. intros O P H. cbn. auto. Qed.
Lemma wp_store_all t ls : forall (xs ys : list (T N)) h (Q : unit -> heap N -> Prop), (forall l, In l ls -> own t l) -> (forall l, In l ls -> h l <> None) -> take (List.length ls) xs = Ok ys ->
  Q tt (put_all ls ys h) -> wp t (store_all ls xs) h Q.
Proof.
  induction ls as [|l ls IH]; intros xs ys h Q O P L H; cbn [store_all].
  - cbn in *. exact H.
  - unfold take in L. destruct xs as [|x xs]; [discriminate L|]. cbn [List.length firstn] in L. change (S (List.length ls) <=? S (List.length xs))%nat with (List.length ls <=? List.length xs)%nat in L.
    destruct (List.length ls <=? List.length xs)%nat eqn:E; [|discriminate]. injection L as <-.
    apply wp_bind, wp_store; [apply O; left; reflexivity|apply P; left; reflexivity|].
    apply (IH xs (firstn (List.length ls) xs)).
    + intros l' Hl. apply O. right. exact Hl.
    + intros l' Hl. destruct (loc_eqb_spec l l') as [->|Ne]; [rewrite hupd_same; discriminate|rewrite hupd_other by exact Ne; apply P; right; exact Hl].
    + unfold take. rewrite E. reflexivity.
    + exact H.
Qed.
Variables (fuel : nat) (st : settings N).
Lemma wp_init_q t h x v pkl g (Q : _ -> heap N -> Prop) : own t (Priv t x) -> can_read t h pk_lin -> h pk_lin = Some (VPk pkl) -> h (Priv t x) = Some v -> ~ allocated v ->
  new_q fuel st pkl x = Ok g -> Q tt (hupd h (Priv t x) (VQ g)) -> wp t (p_init_q fuel st t x) h Q.
Proof.
  intros O C E E2 NA G H. unfold p_init_q. cbn [ProofThreads.wp]. split; [left; exact O|]. rewrite E2.
  enough (W : wp t (pbind (load_pk pk_lin) (fun pkl => pbind (attempt (init_gauss_legendre_q fuel (s_prec st x) pkl)) (fun g => store (Priv t x) (VQ g)))) h Q).
  { destruct v; try exact W. destruct NA; exact I. }
  apply wp_bind, (wp_load_pk t h pk_lin pkl); [exact C|exact E|]. apply wp_bind, (wp_attempt t h _ g); [exact G|]. apply wp_store; [exact O|congruence|exact H].
Qed.
Lemma wp_init_mu t h x v m (Q : _ -> heap N -> Prop) : own t (Priv t x) -> h (Priv t x) = Some v -> ~ allocated v ->
  new_mu fuel st x = Ok m -> Q tt (hupd h (Priv t x) (VMu m)) -> wp t (p_init_mu fuel st t x) h Q.
Proof.
  intros O E2 NA G H. unfold p_init_mu. cbn [ProofThreads.wp]. split; [left; exact O|]. rewrite E2.
  enough (W : wp t (pbind (attempt (init_gauss_legendre_mu fuel (s_prec st x))) (fun g => store (Priv t x) (VMu g))) h Q).
  { destruct v; try exact W. destruct NA; exact I. }
  apply wp_bind, (wp_attempt t h _ m); [exact G|]. apply wp_store; [exact O|congruence|exact H].
Qed.
Lemma wp_free_q t h x g (Q : _ -> heap N -> Prop) : own t (Priv t x) -> h (Priv t x) = Some (VQ g) -> Q tt (hupd h (Priv t x) VFreed) -> wp t (p_free_q t x) h Q.
Proof. intros O E H. unfold p_free_q. cbn [ProofThreads.wp]. split; [left; exact O|]. rewrite E. apply wp_store; [exact O|congruence|exact H]. Qed.
Lemma wp_free_mu t h x g (Q : _ -> heap N -> Prop) : own t (Priv t x) -> h (Priv t x) = Some (VMu g) -> Q tt (hupd h (Priv t x) VFreed) -> wp t (p_free_mu t x) h Q.
Proof. intros O E H. unfold p_free_mu. cbn [ProofThreads.wp]. split; [left; exact O|]. rewrite E. apply wp_store; [exact O|congruence|exact H]. Qed.
(** A call whose value does not depend on the scratch columns of its tables. *)
Definition gives {A} (f : glq N -> glmu N -> res (A * glq N * glmu N)) (g0 : glq N) (m0 : glmu N) (v : A) : Prop :=
  forall g m, same_q g0 g -> same_rule m0 m -> exists g' m', f g m = Ok (v, g', m') /\ same_q g0 g' /\ same_rule m0 m'.
Lemma transparent_gives {A} (f : tcall N A) g0 m0 v g1 m1 : transparent f -> q_ok g0 -> mu_ok m0 -> f g0 m0 = Ok (v, g1, m1) -> gives f g0 m0 v.
Proof.
  intros [T1 T2] Hg Hm E g m Sg Sm. pose proof (T1 g0 g m0 m Hg Sg Hm Sm) as R. rewrite E in R. unfold same_result in R.
  destruct (f g m) as [[[v' g'] m']|] eqn:E2; [|contradiction]. destruct R as (<- & _ & _). exists g', m'. split; [reflexivity|].
  destruct (T2 g m v g' m' (proj1 Sg) (proj1 Sm) E2). split; [eapply same_q_trans; eassumption|eapply same_rule_trans; eassumption].
Qed.
Lemma wp_on_tables {A} t h q mu pkl (f : Pk N -> glq N -> glmu N -> res (A * glq N * glmu N)) g0 m0 g m v (Q : _ -> heap N -> Prop) :
  q <> mu -> own t (Priv t q) -> own t (Priv t mu) -> can_read t h pk_lin -> h pk_lin = Some (VPk pkl) -> h (Priv t q) = Some (VQ g) -> h (Priv t mu) = Some (VMu m) ->
  same_q g0 g -> same_rule m0 m -> gives (f pkl) g0 m0 v ->
  (forall g' m', same_q g0 g' -> same_rule m0 m' -> Q v (hupd (hupd h (Priv t q) (VQ g')) (Priv t mu) (VMu m'))) -> wp t (on_tables t q mu f) h Q.
Proof.
  intros Ne Oq Om C E Eq Em Sg Sm G H. unfold on_tables. apply wp_bind, (wp_load_pk t h pk_lin pkl); [exact C|exact E|].
  apply wp_bind, (wp_load_q t h _ g); [left; exact Oq|exact Eq|]. apply wp_bind, (wp_load_mu t h _ m); [left; exact Om|exact Em|].
  destruct (G g m Sg Sm) as (g' & m' & Ef & Sg' & Sm'). apply wp_bind, (wp_attempt t h _ (v, g', m')); [exact Ef|].
  apply wp_bind, wp_store; [exact Oq|congruence|]. apply wp_bind, wp_store; [exact Om|rewrite hupd_other by congruence; congruence|]. exact (H g' m' Sg' Sm').
Qed.
End Steps.

(** ** The region *)
(** What a table of a thread contains during the rows: the one made at the start, but for its scratch columns. *)
Inductive table (N : Num) := TQ (g : glq N) | TFix (g : glq N) | TMu (m : glmu N).
Arguments TQ {N} g. Arguments TFix {N} g. Arguments TMu {N} m.
Definition like {N} (T : table N) (v : value N) : Prop :=
  match T with TQ g0 => exists g, v = VQ g /\ same_q g0 g | TFix g0 => v = VQ g0 | TMu m0 => exists m, v = VMu m /\ same_rule m0 m end.
Section Region.
Context {N : Num}.
Variables (parts : list (list Z)) (nk : Z) (cells : Z -> list loc) (vals : Z -> list (T N)) (tabs : list (string * table N)).
Variables (common : loc -> Prop) (cv : loc -> value N) (h0 : heap N).
Hypothesis parts_ok : distributes parts nk.
Hypothesis cells_arr : forall ik c, In c (cells ik) -> exists x i, c = Arr x i /\ x <> "k".
Hypothesis cells_apart : forall ik jk c, In c (cells ik) -> In c (cells jk) -> ik = jk.
Hypothesis common_glob : forall l, common l -> exists x, l = Glob x /\ x <> "pk_lin".

Definition tab_cell (t : nat) (l : loc) : Prop := exists x T, In (x, T) tabs /\ l = Priv t x.
Definition own (t : nat) (l : loc) : Prop := ((t < List.length parts)%nat /\ tab_cell t l) \/ exists ik, In ik (nth t parts []) /\ In l (cells ik).
Lemma In_indices n i : In i (indices n) <-> (0 <= i < n)%Z.
Proof.
  unfold indices. rewrite in_map_iff. split.
  - intros (j & <- & H). apply in_seq in H. lia.
  - intros H. exists (Z.to_nat i). rewrite in_seq. lia.
Qed.
Lemma NoDup_indices n : NoDup (indices n).
Proof. unfold indices. apply FinFun.Injective_map_NoDup; [intros a b; lia|apply seq_NoDup]. Qed.
Lemma indices_length n : List.length (indices n) = Z.to_nat n.
Proof. unfold indices. rewrite map_length, seq_length. reflexivity. Qed.
Lemma in_part t ik : In ik (nth t parts []) -> (t < List.length parts)%nat /\ (0 <= ik < nk)%Z.
Proof.
  intros H. destruct (Nat.lt_ge_cases t (List.length parts)) as [L|L]; [|rewrite nth_overflow in H by exact L; destruct H]. split; [exact L|].
  apply In_indices, (Permutation_in _ parts_ok), in_concat. exists (nth t parts []). split; [apply nth_In, L|exact H].
Qed.
Lemma part_of ik : (0 <= ik < nk)%Z -> exists t, (t < List.length parts)%nat /\ In ik (nth t parts []).
Proof.
  intros H. apply In_indices, (Permutation_in _ (Permutation_sym parts_ok)), in_concat in H. destruct H as (p & Hp & H).
  apply (In_nth _ _ []) in Hp as (t & L & <-). exists t. auto.
Qed.
Lemma concat_NoDup {A} (l : list (list A)) : NoDup (concat l) -> (forall t, NoDup (nth t l [])) /\ (forall t u a, In a (nth t l []) -> In a (nth u l []) -> t = u).
Proof.
  induction l as [|p l IH]; cbn; intros D; [split; [intros [|t]; constructor|intros [|t] u a []]|].
  assert (D1 : NoDup p /\ NoDup (concat l) /\ forall a, In a p -> ~ In a (concat l)).
  { revert D. clear. induction p as [|b p IH]; cbn; intros D; [repeat split; [constructor|exact D|intros a []]|]. inversion D as [|? ? D1 D2]. subst. destruct (IH D2) as (A1 & A2 & A3).
    rewrite in_app_iff in D1. split; [constructor; tauto|]. split; [exact A2|]. intros a [->|H]; [tauto|apply A3, H]. }
  destruct D1 as (D1 & D2 & D3). destruct (IH D2) as [A1 A2]. split; [intros [|t]; [exact D1|apply A1]|].
  assert (X : forall t a, In a p -> In a (nth t l []) -> False).
  { intros t a H1 H2. apply (D3 a H1). destruct (Nat.lt_ge_cases t (List.length l)) as [L|L]; [|rewrite nth_overflow in H2 by exact L; destruct H2].
    apply in_concat. exists (nth t l []). split; [apply nth_In, L|exact H2]. }
  intros [|t] [|u] a H1 H2; [reflexivity|destruct (X u a H1 H2)|destruct (X t a H2 H1)|f_equal; exact (A2 t u a H1 H2)].
Qed.
Lemma parts_NoDup : (forall t, NoDup (nth t parts [])) /\ (forall t u a, In a (nth t parts []) -> In a (nth u parts []) -> t = u).
Proof. apply concat_NoDup, (Permutation_NoDup (Permutation_sym parts_ok)), NoDup_indices. Qed.
Lemma own_inj t u l : own t l -> own u l -> t = u.
Proof.
  intros [[_ (x & T & _ & ->)]|(ik & H1 & H2)] [[_ (y & T' & _ & E)]|(jk & H3 & H4)].
  - congruence.
  - destruct (cells_arr jk _ H4) as (z & i & E & _). discriminate.
  - destruct (cells_arr ik _ H2) as (z & i & E' & _). congruence.
  - assert (ik = jk) by (eapply cells_apart; eassumption). subst jk. exact (proj2 parts_NoDup t u ik H1 H3).
Qed.
Lemma own_common t l : own t l -> ~ common l.
Proof.
  intros [[_ (x & T & _ & ->)]|(ik & H1 & H2)] C; destruct (common_glob _ C) as (y & E & _); [discriminate|].
  destruct (cells_arr ik _ H2) as (z & i & E' & _). congruence.
Qed.
Lemma readonly_k ik : readonly own common (Arr "k" ik).
Proof.
  split; [intros C; destruct (common_glob _ C) as (y & E & _); discriminate|].
  intros t [[_ (x & T & _ & E)]|(jk & H1 & H2)]; [discriminate|]. destruct (cells_arr jk _ H2) as (z & i & E & Nz). congruence.
Qed.
Lemma readonly_glob x : ~ common (Glob x) -> readonly own common (Glob x).
Proof.
  intros C. split; [exact C|]. intros t [[_ (y & T & _ & E)]|(jk & H1 & H2)]; [discriminate|]. destruct (cells_arr jk _ H2) as (z & i & E & Nz). discriminate.
Qed.
Lemma readonly_lin : readonly own common pk_lin.
Proof. apply readonly_glob. intros C. destruct (common_glob _ C) as (y & E & Ne). congruence. Qed.

Definition ready (t : nat) (h : heap N) : Prop :=
  (forall x T, In (x, T) tabs -> exists v, h (Priv t x) = Some v /\ like T v) /\ (forall l, readonly own common l -> h l = h0 l) /\ (forall l, common l -> h l = Some (cv l)).
Hypothesis tabs_names : NoDup (map fst tabs).
Lemma tabs_one x T T' : In (x, T) tabs -> In (x, T') tabs -> T = T'.
Proof.
  clear - tabs_names. revert tabs_names. induction tabs as [|[y U] l IH]; cbn; intros D H1 H2; [destruct H1|]; destruct H1 as [H1|H1]; inversion D as [|? ? D1 D2]; subst.
  - destruct H2 as [H2|H2]; [congruence|]. injection H1 as -> ->. destruct D1. apply (in_map fst) in H2. exact H2.
  - destruct H2 as [H2|H2]; [|exact (IH D2 H1 H2)]. injection H2 as -> ->. destruct D1. apply (in_map fst) in H1. exact H1.
Qed.
(** During row [ik], started from [hs]. *)
Definition amid (t : nat) (ik : Z) (hs h : heap N) : Prop := ready t h /\ forall l, ~ In l (cells ik) -> ~ tab_cell t l -> h l = hs l.
Lemma amid_start t ik h : ready t h -> amid t ik h h.
Proof. intros R. split; [exact R|reflexivity]. Qed.
Lemma own_tab t x T : (t < List.length parts)%nat -> In (x, T) tabs -> own t (Priv t x).
Proof. intros L H. left. split; [exact L|]. exists x, T. auto. Qed.
Lemma own_cell t ik c : In ik (nth t parts []) -> In c (cells ik) -> own t c.
Proof. intros L H. right. exists ik. auto. Qed.
Lemma amid_tab t ik hs h x T v : (t < List.length parts)%nat -> In (x, T) tabs -> like T v -> amid t ik hs h -> amid t ik hs (hupd h (Priv t x) v).
Proof.
  intros L Hx Hv [(R1 & R2 & R3) F]. pose proof (own_tab t x T L Hx) as O. split; [split; [|split]|].
  - intros y U Hy. destruct (String.eqb_spec x y) as [->|Ne].
    + rewrite hupd_same. rewrite (tabs_one y U T Hy Hx). eauto.
    + rewrite hupd_other by congruence. apply R1, Hy.
  - intros l Hl. rewrite hupd_other; [apply R2, Hl|]. intros <-. exact (proj2 Hl t O).
  - intros l Hl. rewrite hupd_other; [apply R3, Hl|]. intros <-. exact (own_common t _ O Hl).
  - intros l H1 H2. rewrite hupd_other; [apply F; assumption|]. intros <-. apply H2. exists x, T. auto.
Qed.
Lemma amid_cell t ik hs h c v : In ik (nth t parts []) -> In c (cells ik) -> amid t ik hs h -> amid t ik hs (hupd h c v).
Proof.
  intros L Hc [(R1 & R2 & R3) F]. pose proof (own_cell t ik c L Hc) as O. split; [split; [|split]|].
  - intros y U Hy. rewrite hupd_other; [apply R1, Hy|]. destruct (cells_arr ik c Hc) as (z & i & -> & _). discriminate.
  - intros l Hl. rewrite hupd_other; [apply R2, Hl|]. intros <-. exact (proj2 Hl t O).
  - intros l Hl. rewrite hupd_other; [apply R3, Hl|]. intros <-. exact (own_common t _ O Hl).
  - intros l H1 H2. rewrite hupd_other; [apply F; assumption|]. intros <-. exact (H1 Hc).
Qed.
Lemma amid_cells t ik hs : forall ls xs h, In ik (nth t parts []) -> incl ls (cells ik) -> amid t ik hs h -> amid t ik hs (put_all ls xs h).
Proof.
  induction ls as [|c ls IH]; intros [|x xs] h L I A; cbn; try exact A. apply IH; [exact L|intros l Hl; apply I; right; exact Hl|]. apply amid_cell; [exact L|apply I; left; reflexivity|exact A].
Qed.
Lemma amid_q t ik hs h x g0 : In (x, TQ g0) tabs -> amid t ik hs h -> exists g, h (Priv t x) = Some (VQ g) /\ same_q g0 g.
Proof. intros Hx [[R _] _]. destruct (R x _ Hx) as (v & E & g & -> & S). eauto. Qed.
Lemma amid_fix t ik hs h x g0 : In (x, TFix g0) tabs -> amid t ik hs h -> h (Priv t x) = Some (VQ g0).
Proof. intros Hx [[R _] _]. destruct (R x _ Hx) as (v & E & ->). exact E. Qed.
Lemma amid_mu t ik hs h x m0 : In (x, TMu m0) tabs -> amid t ik hs h -> exists m, h (Priv t x) = Some (VMu m) /\ same_rule m0 m.
Proof. intros Hx [[R _] _]. destruct (R x _ Hx) as (v & E & g & -> & S). eauto. Qed.
Lemma amid_ro t ik hs h l : readonly own common l -> amid t ik hs h -> h l = h0 l.
Proof. intros Hl [(_ & R & _) _]. apply R, Hl. Qed.
Lemma amid_common t ik hs h l : common l -> amid t ik hs h -> h l = Some (cv l).
Proof. intros Hl [(_ & _ & R) _]. apply R, Hl. Qed.
(** Before the rows: the tables made so far. *)
Definition making (t : nat) (done : list string) (h : heap N) : Prop :=
  (forall x T, In (x, T) tabs -> if in_dec string_dec x done then exists v, h (Priv t x) = Some v /\ like T v else h (Priv t x) = h0 (Priv t x)) /\
  (forall l, ~ tab_cell t l -> ~ common l -> h l = h0 l) /\ (forall l, common l -> h l = Some (cv l)).
Lemma making_tab t done h x T v : In (x, T) tabs -> like T v -> making t done h -> making t (x :: done) (hupd h (Priv t x) v).
Proof.
  intros Hx Hv (M1 & M2 & M3). split; [|split].
  - intros y U Hy. destruct (String.eqb_spec x y) as [->|Ne].
    + destruct (in_dec string_dec y (y :: done)) as [_|C]; [|destruct C; left; reflexivity]. rewrite hupd_same. rewrite (tabs_one y U T Hy Hx). eauto.
    + rewrite hupd_other by congruence. pose proof (M1 y U Hy) as M. destruct (in_dec string_dec y done) as [i|n], (in_dec string_dec y (x :: done)) as [i'|n']; try exact M; [destruct n'; right; exact i|].
      destruct i' as [E|E]; [congruence|destruct (n E)].
  - intros l H1 H2. rewrite hupd_other; [apply M2; assumption|]. intros <-. apply H1. exists x, T. auto.
  - intros l Hl. rewrite hupd_other; [apply M3, Hl|]. intros <-. destruct (common_glob _ Hl) as (z & E & _). discriminate.
Qed.
Lemma making_ready t done h : (t < List.length parts)%nat -> (forall x T, In (x, T) tabs -> In x done) -> making t done h -> ready t h /\ forall l, ~ tab_cell t l -> ~ common l -> h l = h0 l.
Proof.
  intros L A (M1 & M2 & M3). split; [split; [|split]|exact M2].
  - intros x T Hx. specialize (M1 x T Hx). destruct (in_dec string_dec x done) as [_|n]; [exact M1|destruct n; exact (A x T Hx)].
  - intros l Hl. apply M2; [|apply Hl]. intros (x & T & Hx & ->). apply (proj2 Hl t). apply (own_tab t x T L Hx).
  - exact M3.
Qed.
(** After the rows: the tables freed so far. *)
Definition freeing (t : nat) (done : list string) (hs h : heap N) : Prop :=
  (forall x T, In (x, T) tabs -> if in_dec string_dec x done then h (Priv t x) = Some VFreed else exists v, h (Priv t x) = Some v /\ like T v) /\
  (forall l, ~ tab_cell t l -> h l = hs l).
Lemma freeing_start t h : ready t h -> freeing t [] h h.
Proof. intros [R _]. split; [intros x T Hx; cbn; apply R, Hx|reflexivity]. Qed.
Lemma freeing_tab t done hs h x T : In (x, T) tabs -> freeing t done hs h -> freeing t (x :: done) hs (hupd h (Priv t x) VFreed).
Proof.
  intros Hx (M1 & M2). split.
  - intros y U Hy. destruct (String.eqb_spec x y) as [->|Ne].
    + destruct (in_dec string_dec y (y :: done)) as [_|C]; [|destruct C; left; reflexivity]. apply hupd_same.
    + rewrite hupd_other by congruence. pose proof (M1 y U Hy) as M. destruct (in_dec string_dec y done) as [i|n], (in_dec string_dec y (x :: done)) as [i'|n']; try exact M; [destruct n'; right; exact i|].
      destruct i' as [E|E]; [congruence|destruct (n E)].
  - intros l H1. rewrite hupd_other; [apply M2; assumption|]. intros <-. apply H1. exists x, T. auto.
Qed.
Lemma freeing_end t done hs h : (forall x T, In (x, T) tabs -> In x done) -> freeing t done hs h -> (forall x T, In (x, T) tabs -> h (Priv t x) = Some VFreed) /\ forall l, ~ tab_cell t l -> h l = hs l.
Proof. intros A (M1 & M2). split; [|exact M2]. intros x T Hx. specialize (M1 x T Hx). destruct (in_dec string_dec x done) as [_|n]; [exact M1|destruct n; exact (A x T Hx)]. Qed.
Variables (row : nat -> Z -> prog N unit) (thread : nat -> list Z -> prog N unit).
Notation wp := (wp own common cv).
Hypothesis row_ok : forall t ik h, In ik (nth t parts []) -> ready t h -> (forall c, In c (cells ik) -> h c <> None) ->
  wp t (row t ik) h (fun _ h' => ready t h' /\ stored h' (cells ik) (vals ik) /\ forall l, ~ In l (cells ik) -> ~ tab_cell t l -> h' l = h l).
Lemma rows_ok t : forall rows h, NoDup rows -> incl rows (nth t parts []) -> ready t h -> (forall ik c, In ik rows -> In c (cells ik) -> h c <> None) ->
  wp t (foreach (row t) rows) h (fun _ h' => ready t h' /\ (forall ik, In ik rows -> stored h' (cells ik) (vals ik)) /\ forall l, (forall ik, In ik rows -> ~ In l (cells ik)) -> ~ tab_cell t l -> h' l = h l).
Proof.
  induction rows as [|ik rows IH]; intros h D I R P; cbn [foreach].
  - cbn. split; [exact R|]. split; [intros ? []|reflexivity].
  - inversion D as [|? ? D1 D2]. subst. apply wp_bind.
    eapply wp_mono; [|apply (row_ok t ik h); [apply I; left; reflexivity|exact R|intros c Hc; apply (P ik c); [left; reflexivity|exact Hc]]].
    intros [] h1 (R1 & S1 & F1). cbn beta.
    assert (Apart : forall jk c, In jk rows -> In c (cells jk) -> ~ In c (cells ik)).
    { intros jk c Hj Hc Hi. assert (ik = jk) by (eapply cells_apart; eassumption). subst. exact (D1 Hj). }
    assert (NT : forall jk c, In c (cells jk) -> ~ tab_cell t c).
    { intros jk c Hc (x & T & _ & E). destruct (cells_arr jk c Hc) as (y & i & E' & _). congruence. }
    eapply wp_mono; [|apply (IH h1 D2)].
    + intros [] h2 (R2 & S2 & F2). split; [exact R2|]. split.
      * intros jk [<-|Hj]; [|apply S2, Hj]. apply (stored_ext h1); [|exact S1]. intros l Hl. apply F2; [|exact (NT ik l Hl)]. intros jk Hj Hc. exact (Apart jk l Hj Hc Hl).
      * intros l Hl Nt. rewrite F2, F1; [reflexivity|apply Hl; left; reflexivity|exact Nt|intros jk Hj; apply Hl; right; exact Hj|exact Nt].
    + intros jk Hj. apply I. right. exact Hj.
    + exact R1.
    + intros jk c Hj Hc. rewrite F1; [apply (P jk c); [right; exact Hj|exact Hc]|exact (Apart jk c Hj Hc)|exact (NT jk c Hc)].
Qed.
Hypothesis present : forall ik c, (0 <= ik < nk)%Z -> In c (cells ik) -> h0 c <> None.
(** The thread makes its tables, does its rows, frees its tables. *)
Variables (start stop : nat -> prog N unit).
Hypothesis thread_is : forall t rows h Q, wp t (pbind (start t) (fun _ => pbind (foreach (row t) rows) (fun _ => stop t))) h Q -> wp t (thread t rows) h Q.
Hypothesis start_ok : forall t, (t < List.length parts)%nat -> wp t (start t) h0 (fun _ h' => ready t h' /\ forall l, ~ tab_cell t l -> ~ common l -> h' l = h0 l).
Hypothesis stop_ok : forall t h, (t < List.length parts)%nat -> ready t h -> wp t (stop t) h (fun _ h' => (forall x T, In (x, T) tabs -> h' (Priv t x) = Some VFreed) /\ forall l, ~ tab_cell t l -> h' l = h l).
Definition thread_post (t : nat) (h : heap N) : Prop :=
  (forall x T, In (x, T) tabs -> h (Priv t x) = Some VFreed) /\ (forall ik, In ik (nth t parts []) -> stored h (cells ik) (vals ik)) /\ (forall l, common l -> h l = Some (cv l)).
Lemma thread_ok t : (t < List.length parts)%nat -> wp t (thread t (nth t parts [])) h0 (fun _ => thread_post t).
Proof.
  intros L. apply thread_is, wp_bind. eapply wp_mono; [|exact (start_ok t L)]. intros [] h1 [R1 F1]. cbn beta. apply wp_bind.
  assert (NT : forall jk c, In c (cells jk) -> ~ tab_cell t c).
  { intros jk c Hc (x & T & _ & E). destruct (cells_arr jk c Hc) as (y & i & E' & _). congruence. }
  assert (NC : forall jk c, In c (cells jk) -> ~ common c).
  { intros jk c Hc C. destruct (cells_arr jk c Hc) as (y & i & E' & _). destruct (common_glob _ C) as (z & E & _). congruence. }
  eapply wp_mono; [|apply (rows_ok t (nth t parts []) h1)].
  - intros [] h2 (R2 & S2 & _). cbn beta. eapply wp_mono; [|exact (stop_ok t h2 L R2)]. intros [] h3 [F3 G3]. split; [exact F3|]. split.
    + intros ik Hi. apply (stored_ext h2); [|apply S2, Hi]. intros l Hl. apply G3, (NT ik), Hl.
    + intros l Hl. rewrite G3; [apply R2, Hl|]. intros (x & T & _ & ->). destruct (common_glob _ Hl) as (z & E & _). discriminate.
  - apply parts_NoDup.
  - apply incl_refl.
  - exact R1.
  - intros ik c Hi Hc. rewrite F1; [|exact (NT ik c Hc)|exact (NC ik c Hc)]. apply (present ik c); [apply (in_part t), Hi|exact Hc].
Qed.
Lemma team_nth t p : nth_error (team thread parts) t = Some p -> (t < List.length parts)%nat /\ p = thread t (nth t parts []).
Proof.
  unfold team. rewrite nth_error_map. intros H. destruct (nth_error (combine _ _) t) as [[u q]|] eqn:E; [|discriminate]. cbn in H. injection H as <-.
  assert (L : (t < List.length parts)%nat).
  { assert (L : nth_error (combine (seq 0 (List.length parts)) parts) t <> None) by congruence. apply nth_error_Some in L. rewrite combine_length, seq_length in L. lia. }
  split; [exact L|]. apply (nth_error_nth _ _ (0%nat, [])) in E. rewrite combine_nth in E by apply seq_length. rewrite seq_nth in E by exact L. cbn in E. congruence.
Qed.
Lemma team_length : List.length (team thread parts) = List.length parts.
Proof. unfold team. rewrite map_length, combine_length, seq_length. lia. Qed.

Record region_post (h : heap N) : Prop := {
  r_tabs : forall t x T, (t < List.length parts)%nat -> In (x, T) tabs -> h (Priv t x) = Some VFreed;
  r_rows : forall ik, (0 <= ik < nk)%Z -> stored h (cells ik) (vals ik);
  r_common : forall l, common l -> parts <> [] -> h l = Some (cv l);
  r_common0 : forall l, common l -> h l = h0 l \/ h l = Some (cv l);
  r_frame : forall l, (forall t, (t < List.length parts)%nat -> ~ tab_cell t l) -> (forall ik, (0 <= ik < nk)%Z -> ~ In l (cells ik)) -> ~ common l -> h l = h0 l }.
Lemma region_ok : exists bound, forall n g, reaches n (h0, team thread parts) g ->
  (n <= bound)%nat /\ ~ faulty g /\ (forall l, race_on l g -> common l) /\ (finished g \/ can_step g) /\ (finished g -> region_post (fst g)).
Proof.
  assert (W : forall t p, nth_error (team thread parts) t = Some p -> wp t p h0 (fun _ => thread_post t)).
  { intros t p Hp. apply team_nth in Hp as [L ->]. exact (thread_ok t L). }
  exists (total 0 (team thread parts) (fun _ => h0)). intros n g R.
  split; [exact (stops own common cv own_inj own_common h0 _ _ W n g R)|].
  split; [exact (no_fault own common cv own_inj own_common h0 _ _ W n g R)|].
  split; [intros l; exact (race_common own common cv own_inj own_common h0 _ _ W n g l R)|].
  split; [exact (not_stuck own common cv own_inj own_common h0 _ _ W n g R)|].
  intros F. destruct (result own common cv own_inj own_common h0 _ _ W n g R F) as (hp & P & O & RO & C0 & C1). rewrite team_length in P. constructor.
  - intros t x T L Hx. rewrite (O t); [apply (P t L) in Hx; exact Hx|]. left. split; [exact L|]. exists x, T. auto.
  - intros ik Hi. destruct (part_of ik Hi) as (t & L & Ht). apply (stored_ext (hp t)); [|apply (P t L), Ht]. intros l Hl. apply O. right. exists ik. auto.
  - intros l Hl Np. destruct parts as [|p0 ps0] eqn:Ep; [congruence|]. apply (C1 0%nat l Hl). apply (P 0%nat); [cbn; lia|exact Hl].
  - exact C0.
  - intros l H1 H2 H3. apply RO. split; [exact H3|]. intros t [[L Ht]|(ik & Hi & Hl)]; [exact (H1 t L Ht)|]. apply (H2 ik); [apply (in_part t), Hi|exact Hl].
Qed.
End Region.
