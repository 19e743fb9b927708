(** ProofThreads4: steps of a thread of the library. *)
From Coq Require Import ZArith List String Bool Lia Permutation.
From Verif Require Import Base Num Common Kernels Integrals Registry Threads SpecThreads ProofThreads SpecLoops SpecScratch ProofScratch ProofScratch2 ProofScratch3 ProofThreads2 ProofThreads3.
Import ListNotations.
Local Open Scope string_scope.

Lemma gives_gamma1 {N} (g0 g : glq N) a k v u : q_ok g0 -> same_q g0 g -> gamma1_1loop g0 a k = Ok (v, u) -> gamma1_1loop g a k = Ok (v, u) /\ same_q g0 u.
Proof. intros H S E. rewrite <- (gamma1_1loop_same g0 g a k H S). split; [exact E|]. exact (gamma1_1loop_tab g0 u a k v H E). Qed.
Lemma take_Ok {N} n (l r : list (T N)) : take n l = Ok r -> List.length r = n.
Proof. unfold take. destruct (n <=? List.length l)%nat eqn:E; [|discriminate]. intros H. injection H as <-. apply Nat.leb_le in E. rewrite firstn_length. lia. Qed.
Lemma take_all {N} (l : list (T N)) : take (List.length l) l = Ok l.
Proof. unfold take. rewrite Nat.leb_refl, firstn_all. reflexivity. Qed.
Lemma no_common (l : loc) : (fun _ : loc => False) l -> exists x, l = Glob x /\ x <> "pk_lin".
Proof. intros []. Qed.

Section Thread.
Context {N : Num}.
Variables (fuel : nat) (st : settings N) (parts : list (list Z)) (cells : Z -> list loc) (tabs : list (string * table N)).
Variables (common : loc -> Prop) (cv : loc -> value N) (h0 : heap N) (pkl : Pk N) (ks : list (T N)).
Hypothesis parts_ok : distributes parts (zlen ks).
Hypothesis cells_arr : forall ik c, In c (cells ik) -> exists x i, c = Arr x i /\ x <> "k".
Hypothesis common_glob : forall l, common l -> exists x, l = Glob x /\ x <> "pk_lin".
Hypothesis tabs_names : NoDup (map fst tabs).
Hypothesis M : machine h0 pkl ks (out_cells cells (zlen ks)) (map fst tabs) (List.length parts).
Notation own := (own parts cells tabs).
Notation wp := (wp own common cv).
Notation making := (making tabs common cv h0).
Notation freeing := (freeing tabs).
Notation amid := (amid parts cells tabs common cv h0).
Lemma ro_lin : readonly own common pk_lin.
Proof. exact (readonly_lin parts cells tabs common cells_arr common_glob). Qed.

Lemma making_lin t done h : making t done h -> h pk_lin = Some (VPk pkl).
Proof.
  intros (_ & F & _). rewrite F; [apply (m_lin _ _ _ _ _ _ M)| |].
  - intros (x & T & _ & E). discriminate.
  - intros C. destruct (common_glob _ C) as (x & E & Nx). unfold pk_lin in E. congruence.
Qed.
Lemma making_idle t done h x T : (t < List.length parts)%nat -> making t done h -> In (x, T) tabs -> ~ In x done -> exists v, h (Priv t x) = Some v /\ ~ allocated v.
Proof.
  intros L (F & _) Hx Nd. specialize (F x T Hx). destruct (in_dec string_dec x done) as [i|_]; [destruct (Nd i)|]. rewrite F.
  apply (m_tab _ _ _ _ _ _ M t x L). apply (in_map fst) in Hx. exact Hx.
Qed.
Lemma start_q t done h x T g (Q : unit -> heap N -> Prop) : (t < List.length parts)%nat -> In (x, T) tabs -> ~ In x done -> making t done h -> new_q fuel st pkl x = Ok g -> like T (VQ g) ->
  (forall h', making t (x :: done) h' -> Q tt h') -> wp t (p_init_q fuel st t x) h Q.
Proof.
  intros L Hx Nd Mk E Lk H. destruct (making_idle t done h x T L Mk Hx Nd) as (v & Ev & Nv).
  apply (wp_init_q _ _ _ fuel st t h x v pkl g); [exact (own_tab parts cells tabs t x T L Hx)|right; left; apply ro_lin|exact (making_lin t done h Mk)|exact Ev|exact Nv|exact E|].
  apply H. exact (making_tab tabs common cv h0 common_glob tabs_names t done h x T (VQ g) Hx Lk Mk).
Qed.
Lemma start_mu t done h x T m (Q : unit -> heap N -> Prop) : (t < List.length parts)%nat -> In (x, T) tabs -> ~ In x done -> making t done h -> new_mu fuel st x = Ok m -> like T (VMu m) ->
  (forall h', making t (x :: done) h' -> Q tt h') -> wp t (p_init_mu fuel st t x) h Q.
Proof.
  intros L Hx Nd Mk E Lk H. destruct (making_idle t done h x T L Mk Hx Nd) as (v & Ev & Nv).
  apply (wp_init_mu _ _ _ fuel st t h x v m); [exact (own_tab parts cells tabs t x T L Hx)|exact Ev|exact Nv|exact E|].
  apply H. exact (making_tab tabs common cv h0 common_glob tabs_names t done h x T (VMu m) Hx Lk Mk).
Qed.
Lemma stop_q t done hs h x T (Q : unit -> heap N -> Prop) : (t < List.length parts)%nat -> In (x, T) tabs -> match T with TMu _ => False | _ => True end -> ~ In x done -> freeing t done hs h ->
  (forall h', freeing t (x :: done) hs h' -> Q tt h') -> wp t (p_free_q t x) h Q.
Proof.
  intros L Hx K Nd F H. pose proof (proj1 F x T Hx) as E. destruct (in_dec string_dec x done) as [i|_]; [destruct (Nd i)|]. destruct E as (v & E & Lk).
  assert (exists g, v = VQ g) as (g & ->) by (destruct T; [destruct Lk as (g' & -> & _); eauto|rewrite Lk; eauto|destruct K]).
  apply (wp_free_q _ _ _ t h x g); [exact (own_tab parts cells tabs t x T L Hx)|exact E|]. apply H. exact (freeing_tab tabs t done hs h x T Hx F).
Qed.
Lemma stop_mu t done hs h x m0 (Q : unit -> heap N -> Prop) : (t < List.length parts)%nat -> In (x, TMu m0) tabs -> ~ In x done -> freeing t done hs h ->
  (forall h', freeing t (x :: done) hs h' -> Q tt h') -> wp t (p_free_mu t x) h Q.
Proof.
  intros L Hx Nd F H. pose proof (proj1 F x _ Hx) as E. destruct (in_dec string_dec x done) as [i|_]; [destruct (Nd i)|]. destruct E as (v & E & m & -> & _).
  apply (wp_free_mu _ _ _ t h x m); [exact (own_tab parts cells tabs t x _ L Hx)|exact E|]. apply H. exact (freeing_tab tabs t done hs h x _ Hx F).
Qed.
(** Inside a row. *)
Lemma row_k t ik hs h (Q : T N -> heap N -> Prop) : In ik (nth t parts []) -> amid t ik hs h -> Q (nth (Z.to_nat ik) ks (nZ N 0)) h -> wp t (load_num (Arr "k" ik)) h Q.
Proof.
  intros Hi A H. destruct (in_part parts (zlen ks) parts_ok t ik Hi) as [L Hk]. pose proof (readonly_k parts cells tabs common cells_arr common_glob ik) as RO.
  apply (wp_load_num _ _ _ t h _ (nth (Z.to_nat ik) ks (nZ N 0))); [right; left; exact RO| |exact H].
  rewrite (amid_ro parts cells tabs common cv h0 t ik hs h _ RO A). exact (machine_k h0 pkl ks _ _ _ ik M Hk).
Qed.
Lemma row_q t ik hs h x g0 (Q : glq N -> heap N -> Prop) : (t < List.length parts)%nat -> In (x, TQ g0) tabs -> amid t ik hs h -> (forall g, same_q g0 g -> Q g h) -> wp t (load_q (Priv t x)) h Q.
Proof.
  intros L Hx A H. destruct (amid_q parts cells tabs common cv h0 t ik hs h x g0 Hx A) as (g & E & S).
  apply (wp_load_q _ _ _ t h _ g); [left; exact (own_tab parts cells tabs t x _ L Hx)|exact E|exact (H g S)].
Qed.
Lemma row_fix t ik hs h x g0 (Q : glq N -> heap N -> Prop) : (t < List.length parts)%nat -> In (x, TFix g0) tabs -> amid t ik hs h -> Q g0 h -> wp t (load_q (Priv t x)) h Q.
Proof.
  intros L Hx A H. apply (wp_load_q _ _ _ t h _ g0); [left; exact (own_tab parts cells tabs t x _ L Hx)|exact (amid_fix parts cells tabs common cv h0 t ik hs h x g0 Hx A)|exact H].
Qed.
Lemma row_set_q t ik hs h x g0 g (Q : unit -> heap N -> Prop) : (t < List.length parts)%nat -> In (x, TQ g0) tabs -> same_q g0 g -> amid t ik hs h ->
  (amid t ik hs (hupd h (Priv t x) (VQ g)) -> Q tt (hupd h (Priv t x) (VQ g))) -> wp t (store (Priv t x) (VQ g)) h Q.
Proof.
  intros L Hx S A H. destruct (amid_q parts cells tabs common cv h0 t ik hs h x g0 Hx A) as (g' & E & _).
  apply (wp_store _ _ _ t h); [exact (own_tab parts cells tabs t x _ L Hx)|congruence|]. apply H.
  apply (amid_tab parts cells tabs common cv h0 cells_arr common_glob tabs_names t ik hs h x (TQ g0)); [exact L|exact Hx|cbn; eauto|exact A].
Qed.
Lemma row_store t ik hs h c v (Q : unit -> heap N -> Prop) : In ik (nth t parts []) -> In c (cells ik) -> h c <> None -> amid t ik hs h ->
  (amid t ik hs (hupd h c v) -> Q tt (hupd h c v)) -> wp t (store c v) h Q.
Proof.
  intros Hi Hc P A H. apply (wp_store _ _ _ t h); [exact (own_cell parts cells tabs t ik c Hi Hc)|exact P|]. apply H.
  apply (amid_cell parts cells tabs common cv h0 cells_arr common_glob t ik hs h c v Hi Hc A).
Qed.
Lemma row_store_all t ik hs h ls xs ys (Q : unit -> heap N -> Prop) : In ik (nth t parts []) -> incl ls (cells ik) -> (forall c, In c ls -> h c <> None) -> take (List.length ls) xs = Ok ys -> amid t ik hs h ->
  (amid t ik hs (put_all ls ys h) -> Q tt (put_all ls ys h)) -> wp t (store_all ls xs) h Q.
Proof.
  intros Hi Hc P T A H. apply (wp_store_all _ _ _ t ls xs ys h); [intros l Hl; apply (own_cell parts cells tabs t ik l Hi), Hc, Hl|exact P|exact T|]. apply H.
  apply (amid_cells parts cells tabs common cv h0 cells_arr common_glob t ik hs ls ys h Hi Hc A).
Qed.
Lemma row_tables {A} t ik hs h q mu g0 m0 (f : Pk N -> glq N -> glmu N -> res (A * glq N * glmu N)) v (Q : A -> heap N -> Prop) :
  (t < List.length parts)%nat -> q <> mu -> In (q, TQ g0) tabs -> In (mu, TMu m0) tabs -> gives (f pkl) g0 m0 v -> amid t ik hs h ->
  (forall g m, let h' := hupd (hupd h (Priv t q) (VQ g)) (Priv t mu) (VMu m) in amid t ik hs h' -> Q v h') -> wp t (on_tables t q mu f) h Q.
Proof.
  intros L Ne Hq Hm G A0 H. destruct (amid_q parts cells tabs common cv h0 t ik hs h q g0 Hq A0) as (g & Eg & Sg). destruct (amid_mu parts cells tabs common cv h0 t ik hs h mu m0 Hm A0) as (m & Em & Sm).
  apply (wp_on_tables _ _ _ t h q mu pkl f g0 m0 g m v); try assumption.
  - exact (own_tab parts cells tabs t q _ L Hq).
  - exact (own_tab parts cells tabs t mu _ L Hm).
  - right. left. apply ro_lin.
  - rewrite (amid_ro parts cells tabs common cv h0 t ik hs h _ ro_lin A0). apply (m_lin _ _ _ _ _ _ M).
  - intros g' m' Sg' Sm'. apply H.
    apply (amid_tab parts cells tabs common cv h0 cells_arr common_glob tabs_names t ik hs _ mu (TMu m0)); [exact L|exact Hm|cbn; eauto|].
    apply (amid_tab parts cells tabs common cv h0 cells_arr common_glob tabs_names t ik hs _ q (TQ g0)); [exact L|exact Hq|cbn; eauto|exact A0].
Qed.
Lemma row_gamma1 t ik hs h g0 a k v u (Q : T N -> heap N -> Prop) : (t < List.length parts)%nat -> In ("gamma1_1loop_q", TQ g0) tabs -> q_ok g0 -> gamma1_1loop g0 a k = Ok (v, u) -> amid t ik hs h ->
  (let h' := hupd h (Priv t "gamma1_1loop_q") (VQ u) in amid t ik hs h' -> Q v h') -> wp t (p_gamma1_1loop t a k) h Q.
Proof.
  intros L Hx Hg E A H. unfold p_gamma1_1loop. apply wp_bind, (row_q t ik hs h _ g0); [exact L|exact Hx|exact A|]. intros g S.
  destruct (gives_gamma1 g0 g a k v u Hg S E) as [E' S']. apply wp_bind, (wp_attempt _ _ _ t h _ (v, u)); [exact E'|]. cbv beta iota.
  apply wp_bind, (row_set_q t ik hs h _ g0); [exact L|exact Hx|exact S'|exact A|]. intros A'. exact (H A').
Qed.
End Thread.
