(** * The allocator calls of whole histories (C53) *)
From Verif Require Import ProofBase SpecSmall World Query History ProofEntities ProofBitset ProofArrayVec ProofUVec.
From Verif Require Export ProofMemAdd.

Lemma tr_spawn_empty : tr wown [] spawn_empty spawn_empty_t no [].
Proof.
  rewrite /spawn_empty /spawn_empty_t. trb. intros e. eapply tr_bind; [apply tr_builder_new|]. intros b. apply tr_with_builder, tr_build.
Qed.
Lemma tr_get_or_create_type t : tr wown [] (get_or_create_type t) (get_or_create_type_t t) no [].
Proof.
  rewrite /get_or_create_type /get_or_create_type_t. trb. intros [c|]; [by apply tr_ret|].
  eapply tr_bind; [apply tr_spawn_empty|]. intros e. trb. intros o. trb. intros om. trb. intros m. trb. intros []. trb. intros [].
  by apply tr_ret.
Qed.
Lemma tr_builder_with t v : tr bwown [] (builder_with t v) (builder_with_t t v) no [].
Proof.
  rewrite /builder_with /builder_with_t. eapply tr_bind; [apply tr_on_snd_bw, tr_get_or_create_type|]. intros c. apply tr_builder_with_data.
Qed.
Lemma tr_add_component e t v : tr wown [] (add_component e t v) (add_component_t e t v) no [].
Proof.
  rewrite /add_component /add_component_t. eapply tr_bind.
  { eapply (tr_on_unwind _ _ _ _ _ []); [|intros ev [= <-]; exists []; split; [done|by apply acts_nil]].
    trb. intros al. trb. intros []. apply tr_get_or_create_type. }
  intros c. apply tr_add_component_with_data.
Qed.
Lemma tr_remove_component e t : tr wown [] (remove_component e t) (remove_component_t e t) no [].
Proof.
  rewrite /remove_component /remove_component_t. trb. intros al. trb. intros []. eapply tr_bind; [apply tr_get_or_create_type|]. intros c.
  apply tr_remove_component_dynamic.
Qed.
Lemma tr_run_bop o : tr bwown [] (run_bop o) (run_bop_t o) no [].
Proof.
  destruct o; cbn [run_bop run_bop_t]; [apply tr_builder_with|apply tr_plain, still_builder_with_dynamic|apply tr_builder_with_data|].
  eapply tr_bind; [apply tr_build|]. intros e. by apply tr_ret.
Qed.
Lemma tr_run_bops bs : tr bwown [] (run_bops bs) (run_bops_t bs) no [].
Proof.
  induction bs as [|o bs IH]; cbn [run_bops run_bops_t]; [by apply tr_ret|]. eapply tr_bind; [apply tr_run_bop|]. by intros [].
Qed.
Lemma tr_spawn_builder cap meta : tr wown [] (spawn_builder cap meta) (spawn_builder_t cap meta) bhas [].
Proof.
  rewrite /spawn_builder /spawn_builder_t. trb. intros e. destruct cap; [apply tr_builder_with_capacity|apply tr_builder_new].
Qed.

(** As [tr], for calls that may leak at most [n] blocks when they return. *)
Definition ltr {S A} (own : S → list layout) (n : nat) (x : list layout) (m : M S A) (mt : M (S * mlog) A) : Prop :=
  ∀ s lg, okl (own s ++ x) →
    match m s with
    | Done a s' ev => ∃ ops K, mt (s, lg) = Done a (s', lg ++ ops) ev ∧ acts (own s ++ x) ops (own s' ++ K) ∧ length K ≤ n ∧ Forall (λ b, l_align b = 1) K
    | Panicked r s' ev => ∃ ops, mt (s, lg) = Panicked r (s', lg ++ ops) ev ∧ acts (own s ++ x) ops (own s')
    | Deadlock => mt (s, lg) = Deadlock
    | UB => True
    end.
Lemma tr_ltr {S A} (own : S → list layout) n x (m : M S A) mt : tr own x m mt no [] → ltr own n x m mt.
Proof.
  intros H s lg Hok. specialize (H s lg Hok). destruct (m s); [..|done|done].
  - destruct H as (ops & E & H). exists ops, []. split; [done|]. split; [done|]. split; [simpl; lia|done].
  - destruct H as (ops & E & H). exists ops. split; [done|]. by rewrite app_nil_r in H.
Qed.
Lemma ltr_bind {S A B} (own : S → list layout) n x (m : M S A) mt y (k : A → M S B) kt :
  tr own x m mt y [] → (∀ a, ltr own n (y a) (k a) (kt a)) → ltr own n x (bind m k) (bind mt kt).
Proof.
  intros Hm Hk s lg Hok. rewrite /bind. specialize (Hm s lg Hok). destruct (m s) as [a s' ev|r s' ev| |]; [|..|done].
  - destruct Hm as (o1 & -> & H1). specialize (Hk a s' (lg ++ o1) (proj1 H1 Hok)). destruct (k a s') as [b s'' ev'|r s'' ev'| |]; simpl; [..|by rewrite Hk|done].
    + destruct Hk as (o2 & K & -> & H2 & HK). exists (o1 ++ o2), K. rewrite app_assoc. split; [done|]. split; [by eapply acts_app|done].
    + destruct Hk as (o2 & -> & H2). exists (o1 ++ o2). rewrite app_assoc. split; [done|]. by eapply acts_app.
  - destruct Hm as (o1 & -> & H1). exists o1. by rewrite app_nil_r in H1.
  - by rewrite Hm.
Qed.
Lemma ltr_ret {S A B} (own : S → list layout) n x (m : M S A) mt (f : A → B) :
  ltr own n x m mt → ltr own n x (bind m (λ a, ret (f a))) (bind mt (λ a, ret (f a))).
Proof.
  intros H s lg Hok. specialize (H s lg Hok). unfold bind, ret. destruct (m s) as [a s' ev|r s' ev| |]; [..|by rewrite H|done].
  - destruct H as (ops & K & -> & H & HK). by exists ops, K.
  - destruct H as (ops & -> & H). by exists ops.
Qed.
Lemma ltr_forget {A} b (m : M bw A) mt : tr bwown [] m mt no [] → ltr wown 1 (bhas b) (forget_builder b m) (forget_builder_t b mt).
Proof.
  intros H w lg Hok. pose proof (tr_with_builder b m mt H w lg Hok) as Hw. assert (okl (bwown (b, w) ++ [])) as Hok0.
  { rewrite app_nil_r /bwown /=. by rewrite Permutation_app_comm. }
  specialize (H (b, w) lg Hok0). rewrite /forget_builder /forget_builder_t. cbn [fst snd]. unfold bw in *.
  destruct (m (b, w)) as [a [b' w'] ev|r [b' w'] ev| |] eqn:Em.
  - destruct H as (o1 & -> & H1). exists o1, (bhas b'). split; [done|]. rewrite !app_nil_r in H1. split.
    + eapply acts_perm; [..|exact H1]; rewrite /bwown /=; apply Permutation_app_comm.
    + rewrite /bhas /bown. destruct (decide _); simpl; (split; [lia|by repeat constructor]).
  - destruct H as (o1 & -> & _). destruct (with_builder b m w) as [a w'' ev''|r'' w'' ev''| |]; [..|done|done].
    + destruct Hw as (ops & E & H). exists ops, []. split; [done|]. split; [done|]. split; [simpl; lia|done].
    + destruct Hw as (ops & E & H). exists ops. split; [done|]. by rewrite app_nil_r in H.
  - rewrite H. rewrite /with_builder Em. rewrite /with_builder_t. cbn [fst snd]. by rewrite H.
  - by rewrite /with_builder Em.
Qed.
Definition oleaks (o : op) : nat := match o with OSpawn _ _ _ BForget => 1 | _ => 0 end.
Lemma ltr_step o : ltr wown (oleaks o) [] (step o) (step_t o).
Proof.
  destruct o as [cap meta bs fin|e|e t v|e t|e c|e c v|e c|t|e c v|e t|e]; cbn [step step_t oleaks].
  - apply ltr_ret. rewrite /spawn_program /spawn_program_t. eapply ltr_bind; [apply tr_spawn_builder|]. intros b.
    apply (ltr_ret _ _ _ _ _ (λ _, eb_entity b)). destruct fin.
    + apply tr_ltr, tr_with_builder, tr_run_bops.
    + apply ltr_forget, tr_run_bops.
  - apply tr_ltr, tr_plain. st.
  - apply (ltr_ret _ _ _ _ _ (λ _, RUnit)), tr_ltr, tr_add_component.
  - apply (ltr_ret _ _ _ _ _ (λ _, RUnit)), tr_ltr, tr_remove_component.
  - apply (ltr_ret _ _ _ _ _ (λ _, RUnit)), tr_ltr, tr_add_component_dynamic.
  - apply (ltr_ret _ _ _ _ _ (λ _, RUnit)), tr_ltr, tr_add_component_with_data.
  - apply (ltr_ret _ _ _ _ _ (λ _, RUnit)), tr_ltr, tr_remove_component_dynamic.
  - apply ltr_ret, tr_ltr, tr_get_or_create_type.
  - apply tr_ltr, tr_plain. st.
  - apply tr_ltr, tr_plain. st.
  - apply tr_ltr, tr_plain. st.
Qed.

(** ** Queries *)
Lemma still_in_lock {A} i (m : M rwlock A) : still wown (in_lock i m).
Proof. intros w. rewrite /in_lock /zoom. destruct (w_locks w !! i) as [l|]; [|done]. by destruct (m l). Qed.
Lemma release_lock_own u g w : wown (release_lock u g w) = wown w.
Proof. by destruct g. Qed.
Lemma release_all_own u gs w : wown (release_all u gs w) = wown w.
Proof.
  rewrite /release_all. revert w. induction gs as [|g gs IH]; intros w; [done|]. cbn [foldl]. by rewrite IH release_lock_own.
Qed.
Lemma still_releasing {A} gs (m : M world A) : still wown m → still wown (releasing gs m).
Proof. intros H w. specialize (H w). rewrite /releasing. destruct (m w); try done. by rewrite release_all_own. Qed.
Ltac sq := repeat (st1 || apply still_in_lock || apply still_releasing || eauto with still).
Lemma still_acquire_read i : still wown (acquire_read i).
Proof. apply still_in_lock. Qed.
Lemma still_acquire_write i : still wown (acquire_write i).
Proof. apply still_in_lock. Qed.
Global Hint Resolve still_acquire_read still_acquire_write : still.
Lemma still_dq_lock fs gs b : still wown (dq_lock fs gs b).
Proof. revert gs b. induction fs as [|f fs IH]; intros gs b; cbn [dq_lock]; sq. Qed.
Lemma still_sq_lock fs gs : still wown (sq_lock fs gs).
Proof. revert gs. induction fs as [|f fs IH]; intros gs; cbn [sq_lock]; sq. Qed.
Global Hint Resolve still_dq_lock still_sq_lock : still.
Lemma still_dq_new fs : still wown (dq_new fs).
Proof. rewrite /dq_new. sq. Qed.
Lemma still_sq_new ps : still wown (sq_new ps).
Proof. rewrite /sq_new. sq. Qed.
Lemma still_fetch_iter f : still wown (fetch_iter f).
Proof. rewrite /fetch_iter. sq. Qed.
Global Hint Resolve still_fetch_iter : still.
Lemma still_fetch_iters fs : still wown (fetch_iters fs).
Proof. induction fs; cbn [fetch_iters]; sq. Qed.
Global Hint Resolve still_fetch_iters : still.
Lemma still_arch_next it : still wown (arch_next it).
Proof. rewrite /arch_next. sq. Qed.
Lemma still_ptr_add p n : still wown (ptr_add p n).
Proof. intros w. rewrite /ptr_add. destruct (decide _); [done|]. destruct (ptr_extent w p); [|done]. by destruct (decide _). Qed.
Lemma still_cast_ptr p q : still wown (cast_ptr p q).
Proof. intros w. rewrite /cast_ptr. destruct p as [t|t|]; [destruct (deref_val w q (ty_size t)); [destruct (col_aligned w q (ty_align t))|]..|destruct (deref_ent w q)]; done. Qed.
Global Hint Resolve still_arch_next still_ptr_add still_cast_ptr : still.
Lemma still_advance ps : still wown (advance ps).
Proof. induction ps as [|[p n] ps IH]; cbn [advance]; sq. Qed.
Global Hint Resolve still_advance : still.
Lemma still_create_ptrs k a fs : still wown (create_ptrs k a fs).
Proof. induction fs as [|f fs IH]; cbn [create_ptrs]; rewrite /create_ptr; sq. Qed.
Lemma still_intra_next it : still wown (intra_next it).
Proof. rewrite /intra_next. sq. Qed.
Global Hint Resolve still_create_ptrs still_intra_next : still.
Lemma still_di_next_fuel n it : still wown (di_next_fuel n it).
Proof. revert it. induction n as [|n IH]; intros it; cbn [di_next_fuel]; sq. Qed.
Lemma still_di_next it : still wown (di_next it).
Proof. apply still_di_next_fuel. Qed.
Global Hint Resolve still_di_next : still.
Lemma still_di_run n it : still wown (di_run n it).
Proof. revert it. induction n as [|n IH]; intros it; cbn [di_run]; sq. Qed.
Lemma still_cast_ptrs l : still wown (cast_ptrs l).
Proof. induction l as [|[p q] l IH]; cbn [cast_ptrs]; sq. Qed.
Lemma still_param_ptrs k a fs : still wown (param_ptrs k a fs).
Proof. induction fs as [|f fs IH]; cbn [param_ptrs]; rewrite /param_ptr; sq. Qed.
Lemma still_offset_ptrs n l : still wown (offset_ptrs n l).
Proof. induction l as [|[p q] l IH]; cbn [offset_ptrs]; sq. Qed.
Global Hint Resolve still_di_run still_cast_ptrs still_param_ptrs still_offset_ptrs : still.
Lemma still_si_next_fuel n it : still wown (si_next_fuel n it).
Proof. revert it. induction n as [|n IH]; intros it; cbn [si_next_fuel]; rewrite /si_intra_next; sq. Qed.
Lemma still_si_next it : still wown (si_next it).
Proof. apply still_si_next_fuel. Qed.
Global Hint Resolve still_si_next : still.
Lemma still_si_run n it : still wown (si_run n it).
Proof. revert it. induction n as [|n IH]; intros it; cbn [si_run]; sq. Qed.
Global Hint Resolve still_si_run still_dq_new still_sq_new : still.
Lemma still_query_item q n : still wown (query_item q n).
Proof. destruct q; cbn [query_item]; rewrite /dq_iter /dq_arch_iter /sq_iter /sq_arch_iter; sq. Qed.
Global Hint Resolve still_query_item : still.

(** ** Sessions *)
Definition ssown (s : sess) : list layout := wown (ss_world s).
Lemma lens_sworld s w : Some (ss_world s) = Some w → ∃ R, ssown s ≡ₚ wown w ++ R ∧ ∀ w', ssown (Sess w' (ss_open s)) ≡ₚ wown w' ++ R.
Proof. intros [= <-]. exists []. split; [by rewrite app_nil_r|]. intros w'. by rewrite app_nil_r. Qed.
Lemma still_in_sworld {A} (m : M world A) : still wown m → still ssown (in_sworld m).
Proof. apply still_zoom. apply lens_sworld. Qed.
Ltac ss := repeat (apply still_in_sworld || st1 || eauto with still).
Lemma still_open_query m : still wown m → still ssown (open_query m).
Proof. intros H. rewrite /open_query. ss. Qed.
Lemma still_close_query i : still ssown (close_query i).
Proof. rewrite /close_query. ss. Qed.
Lemma still_ptr_store p v : still wown (ptr_store p v).
Proof. destruct p; cbn [ptr_store]; ss. Qed.
Global Hint Resolve still_close_query still_ptr_store : still.
Lemma ltr_sstep o : ltr ssown (leaks o) [] (sstep o) (sstep_t o).
Proof.
  destruct o as [o|fs|ps|i u|i|i n j v]; cbn [sstep sstep_t leaks]; [|apply tr_ltr, tr_plain..].
  - apply ltr_ret. intros s lg Hok. pose proof (ltr_step o (ss_world s) lg Hok) as H.
    rewrite /in_sworld /in_sworld_t /zoom /tzoom /zoom. simpl. destruct (step o (ss_world s)) as [a w' ev|r w' ev| |]; [..|by rewrite H|done].
    + destruct H as (ops & K & -> & H). exists ops, K. done.
    + destruct H as (ops & -> & H). by exists ops.
  - apply still_open_query. ss.
  - apply still_open_query. ss.
  - ss. by rewrite release_all_own.
  - ss.
  - ss.
Qed.

(** ** The blocks of a world in order are those its capacities announce *)
Lemma rep_block v l : uv_rep v l → block (uv_data v) = uown v ∧ okl (uown v).
Proof.
  intros H. rewrite /uown. destruct (decide (uv_size v = 0)) as [Hs|Hs].
  - rewrite (uv_rep_zst _ _ Hs) in H. destruct H as (_ & -> & -> & _). split; [done|constructor].
  - rewrite (uv_rep_sized _ _ Hs) in H. destruct H as (_ & _ & [(-> & -> & _)|(rest & -> & Hc & Hb & Hl)]); [split; [done|constructor]|].
    destruct (decide (uv_cap v = 0)); [lia|]. rewrite /block -Hc. split; [done|]. constructor; [|done]. by eapply lfsa_wf.
Qed.
Lemma bind_same {A} (f g : A → list layout) (l : list A) :
  (∀ x, x ∈ l → f x = g x ∧ okl (g x)) → (l ≫= f) = (l ≫= g) ∧ okl (l ≫= g).
Proof.
  induction l as [|x l IH]; intros H; [by split; [|constructor]|]. destruct (H x) as [H1 H2]; [by left|]. destruct IH as [H3 H4]; [intros y Hy; apply H; by right|].
  rewrite !bind_cons H1 H3. split; [done|]. by apply Forall_app.
Qed.
Lemma owned_wown w R : winv w R → owned w = wown w ∧ okl (wown w).
Proof.
  intros Hw. rewrite /owned /wown.
  destruct (bind_same (λ a, a_storages a ≫= λ s, block (uv_data s.2)) aown (w_archs w)) as [H1 H2].
  { intros a [k Ha]%elem_of_list_lookup_1. apply bind_same. intros [c v] Hc.
    destruct (lookup_lt_is_Some_2 R k) as [rs Hrs]; [rewrite (wi_len _ _ Hw); by eapply lookup_lt_Some|].
    destruct (ar_cols _ _ _ (wi_rows _ _ Hw _ _ _ Ha Hrs) _ _ Hc) as (cm & _ & _ & Hrep). by eapply rep_block. }
  rewrite H1. pose proof (wi_reuse _ _ Hw) as H. destruct (w_reuse w) as [[[ids p] cap]|]; [|by rewrite !app_nil_r].
  destruct H as (_ & Hc & [(? & _)|(_ & Hl & m & -> & Hm)]); [done|]. rewrite /bown decide_False; [|done]. rewrite /block Hm. split; [done|].
  apply Forall_app. split; [done|]. constructor; [|done]. by eapply lfsa_wf.
Qed.

(** ** Histories *)
Lemma sess_new_own : ssown sess_new = [].
Proof. by vm_compute. Qed.
Lemma steps_logged l s : steps sess_new l s → ∃ lg, steps_t (sess_new, []) l (s, lg).
Proof.
  remember sess_new as s0 eqn:E0. induction 1 as [s|s0 l s1 o r s2 ev Hst IH Hl Ht E|s0 l s1 o r s2 ev Hst IH Hl Ht E Hr].
  - subst. exists []. constructor.
  - subst. destruct IH as [lg IH]; [done|]. assert (reachable s1) as Hs by by exists l.
    destruct (sv_world _ (reachable_inv _ Hs)) as [[R Hw] _]. destruct (owned_wown _ _ Hw) as [_ Hok].
    pose proof (ltr_sstep o s1 lg) as H. rewrite E app_nil_r in H. destruct H as (ops & K & Et & _); [done|].
    exists (lg ++ ops). by econstructor.
  - subst. destruct IH as [lg IH]; [done|]. assert (reachable s1) as Hs by by exists l.
    destruct (sv_world _ (reachable_inv _ Hs)) as [[R Hw] _]. destruct (owned_wown _ _ Hw) as [_ Hok].
    pose proof (ltr_sstep o s1 lg) as H. rewrite E app_nil_r in H. destruct H as (ops & Et & _); [done|].
    exists (lg ++ ops). by econstructor.
Qed.
Lemma leaked_app l1 l2 : leaked (l1 ++ l2) = leaked l1 + leaked l2.
Proof. induction l1 as [|[[o r] ev] l1 IH]; [done|]. cbn [leaked app]. rewrite IH. lia. Qed.
Lemma reachable_okl s : reachable s → owned (ss_world s) = ssown s ∧ okl (ssown s).
Proof. intros Hs. destruct (sv_world _ (reachable_inv _ Hs)) as [[R Hw] _]. by eapply owned_wown. Qed.
Lemma sstep_no_ub o s : reachable s → sop_legal o s → sop_tame o s → sstep o s ≠ UB.
Proof. intros Hs Hl Ht E. pose proof (sstep_inv o s (reachable_inv _ Hs) Hl Ht) as H. by rewrite E in H. Qed.
Lemma steps_t_live l sg : steps_t (sess_new, []) l sg → steps sess_new l sg.1 ∧
  ∃ L K, live [] sg.2 = Some L ∧ L ≡ₚ ssown sg.1 ++ K ∧ length K ≤ leaked l ∧ Forall (λ b, l_align b = 1) K.
Proof.
  remember (sess_new, []) as s0 eqn:E0. induction 1 as [s|s0 l s1 o r s2 ev Hst IH Hl Ht E|s0 l s1 o r s2 ev Hst IH Hl Ht E Hr].
  - subst. split; [constructor|]. exists [], []. rewrite sess_new_own. by split_and!.
  - subst. destruct IH as (Hs1 & L & K & HL & HP & Hn & HK); [done|]. destruct s1 as [s1 lg]. cbn [fst snd] in *.
    assert (reachable s1) as Hs by by exists l. destruct (reachable_okl _ Hs) as [_ Hok].
    pose proof (ltr_sstep o s1 lg) as H. rewrite !app_nil_r in H. specialize (H Hok). pose proof (sstep_no_ub o s1 Hs Hl Ht) as Hub.
    destruct (sstep o s1) as [a s' ev'|a s' ev'| |] eqn:Es; [..|by rewrite H in E|done].
    + destruct H as (ops & K' & E' & Ha & Hn' & HK'). rewrite E' in E. injection E as <- <- <-. split; [by econstructor|].
      destruct (proj2 Ha L K HP) as (L1 & HL1 & HP1). exists L1, (K' ++ K). cbn [fst snd]. rewrite live_app HL. split; [done|].
      split; [by rewrite HP1 app_assoc|]. rewrite leaked_app /= app_length. split; [lia|]. by apply Forall_app.
    + destruct H as (ops & E' & Ha). by rewrite E' in E.
  - subst. destruct IH as (Hs1 & L & K & HL & HP & Hn & HK); [done|]. destruct s1 as [s1 lg]. cbn [fst snd] in *.
    assert (reachable s1) as Hs by by exists l. destruct (reachable_okl _ Hs) as [_ Hok].
    pose proof (ltr_sstep o s1 lg) as H. rewrite !app_nil_r in H. specialize (H Hok). pose proof (sstep_no_ub o s1 Hs Hl Ht) as Hub.
    destruct (sstep o s1) as [a s' ev'|a s' ev'| |] eqn:Es; [..|by rewrite H in E|done].
    + destruct H as (ops & K' & E' & _). by rewrite E' in E.
    + destruct H as (ops & E' & Ha). rewrite E' in E. injection E as <- <- <-. split; [by econstructor|].
      destruct (proj2 Ha L K HP) as (L1 & HL1 & HP1). exists L1, K. cbn [fst snd]. rewrite live_app HL. split; [done|].
      split; [done|]. rewrite leaked_app /=. split; [lia|done].
Qed.

(** ** Dropping the world *)
Lemma frees_archs l : frees (drop_archs l) (drop_archs_t l) (l ≫= aown).
Proof.
  induction l as [|a l IH]; intros ev; cbn [drop_archs drop_archs_t].
  { intros [= <-]. exists []. split; [done|]. by apply acts_nil. }
  pose proof (frees_storages (a_storages a)) as Hv. destruct (uv_drop_all _) as [e1|]; [|done]. destruct (drop_archs l) as [e2|]; [|done].
  intros [= <-]. destruct (Hv e1 eq_refl) as (o1 & -> & H1). destruct (IH e2 eq_refl) as (o2 & -> & H2).
  exists (o1 ++ o2). split; [done|]. rewrite bind_cons. eapply acts_app; [by apply acts_frame|]. done.
Qed.
Lemma frees_world w R : winv w R → frees (world_drop w) (world_drop_t w) (wown w).
Proof.
  intros Hw ev. rewrite /world_drop (reuse_drop w R Hw). pose proof (frees_archs (w_archs w)) as Ha. destruct (drop_archs (w_archs w)) as [ev'|]; [|done].
  intros [= ->]. destruct (Ha ev eq_refl) as (o2 & E2 & H2). rewrite /world_drop_t E2. rewrite /drop_reuse_t /wown.
  pose proof (wi_reuse _ _ Hw) as H. destruct (w_reuse w) as [[[ids p] cap]|].
  - destruct H as (_ & Hc & [(? & _)|(_ & Hl & m & -> & Hm)]); [done|]. rewrite Hl /heap_dealloc /= decide_True; [|done].
    eexists. split; [done|]. rewrite /bown decide_False; [|done]. change (MFree ?x :: ?l) with ([MFree x] ++ l).
    eapply acts_app; [|exact H2]. eapply acts_perm; [apply Permutation_app_comm|reflexivity|]. change (Layout cap 1 :: [] ++ ?l) with ([Layout cap 1] ++ l).
    apply (acts_frame _ _ []), acts_free.
  - exists o2. split; [done|]. by rewrite app_nil_r.
Qed.

(** ** What the theorems state *)
Lemma log_faithful l s : (∀ lg, steps_t (sess_new, []) l (s, lg) → steps sess_new l s) ∧
  (steps sess_new l s → ∃ lg, steps_t (sess_new, []) l (s, lg)).
Proof. split; [|apply steps_logged]. intros lg H. by apply steps_t_live in H as [H _]. Qed.
Lemma log_history l s lg : steps_t (sess_new, []) l (s, lg) →
  ∃ L K, live [] lg = Some L ∧ L ≡ₚ owned (ss_world s) ++ K ∧ length K ≤ leaked l ∧ Forall (λ b, l_align b = 1) K.
Proof.
  intros H. apply steps_t_live in H as [H (L & K & H1 & H2 & H3)]. assert (reachable s) as Hs by by exists l.
  exists L, K. by rewrite (proj1 (reachable_okl _ Hs)).
Qed.
Lemma log_call l s lg o : steps_t (sess_new, []) l (s, lg) → sop_legal o s → sop_tame o s →
  match sstep_t o (s, lg) with
  | Done a (s', lg') ev => sstep o s = Done a s' ev ∧ is_Some (live [] lg')
  | Panicked r (s', lg') ev => sstep o s = Panicked r s' ev ∧ is_Some (live [] lg')
  | Deadlock => sstep o s = Deadlock
  | UB => False
  end.
Proof.
  intros H Hl Ht. apply steps_t_live in H as [H (L & K & H1 & H2 & H3)]. cbn [fst snd] in *. assert (reachable s) as Hs by by exists l.
  pose proof (ltr_sstep o s lg) as Hx. rewrite !app_nil_r in Hx. specialize (Hx (proj2 (reachable_okl _ Hs))).
  pose proof (sstep_no_ub o s Hs Hl Ht). destruct (sstep o s) as [a s' ev|r s' ev| |]; [..|by rewrite Hx|done].
  - destruct Hx as (ops & K' & -> & Ha & _). split; [done|]. rewrite live_app H1. destruct (proj2 Ha L K H2) as (L1 & -> & _). by exists L1.
  - destruct Hx as (ops & -> & Ha). split; [done|]. rewrite live_app H1. destruct (proj2 Ha L K H2) as (L1 & -> & _). by exists L1.
Qed.
Lemma log_drop l s lg : steps_t (sess_new, []) l (s, lg) →
  ∃ ev ops K, world_drop (ss_world s) = Some ev ∧ world_drop_t (ss_world s) = Some (ev, ops) ∧
    live [] (lg ++ ops) = Some K ∧ length K ≤ leaked l ∧ Forall (λ b, l_align b = 1) K.
Proof.
  intros H. apply steps_t_live in H as [H (L & K & H1 & H2 & H3 & H4)]. cbn [fst snd] in *. assert (reachable s) as Hs by by exists l.
  destruct (sv_world _ (reachable_inv _ Hs)) as [[R Hw] _]. destruct (world_drop_sized _ _ Hw) as (ev & Ev & _).
  destruct (frees_world _ _ Hw ev Ev) as (ops & Et & Ha). destruct (proj2 Ha L K H2) as (K' & Hk & HP).
  exists ev, ops, K'. rewrite live_app H1. split_and!; [done..| |]; rewrite /= in HP; by rewrite HP.
Qed.
Lemma log_drop_all l s lg : steps_t (sess_new, []) l (s, lg) → leaked l = 0 →
  ∃ ev ops, world_drop_t (ss_world s) = Some (ev, ops) ∧ live [] (lg ++ ops) = Some [].
Proof.
  intros (ev & ops & K & _ & H1 & H2 & H3 & _)%log_drop Hl. exists ev, ops. split; [done|]. rewrite H2. destruct K; [done|]. simpl in H3. lia.
Qed.
