(** * Properties of queries and of sessions with open queries.
    Theorems only; proofs in ProofAccess.v, ProofRows.v, ProofAlias.v, ProofKnown.v,
    ProofQueryLaws.v, ProofMisaligned.v and ProofRefutedQuery.v, non-vacuity witnesses in ExamplesQuery.v. *)
From Verif Require Import SpecQuery ProofQueryLaws ProofRefutedQuery ProofMisaligned.

(** C10 *)
Theorem C10_rows : ∀ s i q, reachable s → ss_open s !! i = Some (Some (QDyn q)) →
  dq_fetches q ≠ [] → ¬ left_over (ss_world s) (dq_fetches q) →
  ∃ es items, enumerates (wanted (ss_world s) (dq_fetches q)) es ∧
    Forall2 (shows_row (ss_world s) (dq_fetches q)) es items ∧
    ∀ n, iter_dyn q n (ss_world s) = Done (calls n items) (ss_world s) [].
Proof. exact open_dyn_all. Qed.
Print Assumptions C10_rows.
(** Without a fetch there would be an empty row per entity; the code yields none. *)
Theorem C10_no_fetches_refuted : ∃ s i q e, reachable s ∧ ss_open s !! i = Some (Some (QDyn q)) ∧
  wanted (ss_world s) (dq_fetches q) e ∧ iter_dyn q 1 (ss_world s) = Done [None] (ss_world s) [].
Proof. exact no_fetches_no_rows. Qed.
Print Assumptions C10_no_fetches_refuted.
Theorem C10_no_fetches : ∀ s i q n, reachable s → ss_open s !! i = Some (Some (QDyn q)) → dq_fetches q = [] →
  iter_dyn q n (ss_world s) = Done (replicate n None) (ss_world s) [].
Proof. exact open_dyn_empty. Qed.
Print Assumptions C10_no_fetches.

(** C11 *)
Theorem C11_rows : ∀ s i q, reachable s → ss_open s !! i = Some (Some (QStat q)) →
  sq_params q ≠ [] → types_in_use (ss_world s) (sq_params q) →
  ∃ es items, enumerates (wants (ss_world s) (sq_params q)) es ∧
    Forall2 (yields_row (ss_world s) (sq_params q)) es items ∧
    ∀ n, iter_static q n (ss_world s) = Done (calls n items) (ss_world s) [].
Proof. exact open_types_rows. Qed.
Print Assumptions C11_rows.

(** C12 *)
Theorem C12_get : ∀ s i q e, reachable s → ss_open s !! i = Some (Some (QStat q)) →
  match sq_get q e (ss_world s) with
  | Done o w' ev => w' = ss_world s ∧ ev = [] ∧ ¬ unissued (ss_world s) e ∧
      match o with
      | Some xs => wants (ss_world s) (sq_params q) e ∧ yields_row (ss_world s) (sq_params q) e xs
      | None => ¬ wants (ss_world s) (sq_params q) e
      end
  | Panicked r w' ev => w' = ss_world s ∧ ev = [] ∧ r = RNoGeneration ∧ unissued (ss_world s) e
  | _ => False
  end.
Proof. exact open_get. Qed.
Print Assumptions C12_get.

(** C13 *)
Theorem C13_columns : ∀ s i q, reachable s → ss_open s !! i = Some (Some (QDyn q)) →
  dq_fetches q ≠ [] → ¬ left_over (ss_world s) (dq_fetches q) →
  ∃ cols, Forall even_column cols ∧
    (∀ n, iter_cols q n (ss_world s) = Done (calls n cols) (ss_world s) []) ∧
    ∀ n, iter_dyn q n (ss_world s) =
         Done (calls n (cols ≫= column_rows (ss_world s) (dq_fetches q))) (ss_world s) [].
Proof. exact open_columns. Qed.
Print Assumptions C13_columns.

(** C14 *)
Theorem C14_dynamic : ∀ l s i q f c n, steps sess_new l s → no_panic l →
  ss_open s !! i = Some (Some (QDyn q)) → f ∈ dq_fetches q → fetch_id f = Some c → ¬ in_use (ss_world s) c →
  iter_dyn q n (ss_world s) = Done (replicate n None) (ss_world s) [].
Proof. exact silent_dyn. Qed.
Print Assumptions C14_dynamic.
Theorem C14_static : ∀ l s i q p t n, steps sess_new l s → no_panic l →
  ss_open s !! i = Some (Some (QStat q)) → p ∈ sq_params q → param_ty p = Some t →
  (∀ c, type_id (ss_world s) t c → ¬ in_use (ss_world s) c) →
  iter_static q n (ss_world s) = Done (replicate n None) (ss_world s) [] ∧
  ∀ e, ¬ unissued (ss_world s) e → sq_get q e (ss_world s) = Done None (ss_world s) [].
Proof. exact silent_static. Qed.
Print Assumptions C14_static.
(** After a panicking call was caught, the query may panic, and does nothing worse. *)
Theorem C14_dynamic_any : ∀ s i q n, reachable s → ss_open s !! i = Some (Some (QDyn q)) →
  ¬ all_in_use (ss_world s) (dq_fetches q) →
  match iter_dyn q n (ss_world s) with
  | Done rs w' ev => w' = ss_world s ∧ ev = [] ∧ rs = replicate n None
  | Panicked r w' ev => w' = ss_world s ∧ ev = [] ∧ (r = RUnwrap ∨ r = RIndex) ∧ left_over (ss_world s) (dq_fetches q)
  | _ => False
  end.
Proof. exact open_dyn_none. Qed.
Print Assumptions C14_dynamic_any.
Theorem C14_static_any : ∀ s i q n, reachable s → ss_open s !! i = Some (Some (QStat q)) →
  ¬ types_in_use (ss_world s) (sq_params q) →
  match iter_static q n (ss_world s) with
  | Done rs w' ev => w' = ss_world s ∧ ev = [] ∧ rs = replicate n None
  | Panicked r w' ev => w' = ss_world s ∧ ev = [] ∧ r = RUnwrap ∧
      ∃ fs, sq_fetches q = Some fs ∧ left_over (ss_world s) fs
  | _ => False
  end.
Proof. exact open_static_none. Qed.
Print Assumptions C14_static_any.
Theorem C14_after_panic_refuted : ∃ s i q c, reachable s ∧ ss_open s !! i = Some (Some (QDyn q)) ∧
  dq_fetches q = [FImmut c] ∧ (∀ e, ¬ has (ss_world s) e c) ∧
  iter_dyn q 1 (ss_world s) = Panicked RUnwrap (ss_world s) [].
Proof. exact left_over_panics. Qed.
Print Assumptions C14_after_panic_refuted.

(** C10, C13, C14: the side condition of the theorems above always holds unless a call on the
    world panicked and the panic was caught. *)
Theorem C14_no_left_over : ∀ l s fs, steps sess_new l s → no_panic l → ¬ left_over (ss_world s) fs.
Proof. exact no_left_over. Qed.
Print Assumptions C14_no_left_over.

(** C15 *)
Theorem C15_dynamic : ∀ s i q n, reachable s → ss_open s !! i = Some (Some (QDyn q)) →
  match iter_dyn q n (ss_world s) with
  | Done rs w' ev => w' = ss_world s ∧ ev = [] ∧ length rs = n ∧ fused rs
  | Panicked r w' ev => w' = ss_world s ∧ ev = [] ∧ left_over (ss_world s) (dq_fetches q)
  | _ => False
  end.
Proof. exact open_dyn_fused. Qed.
Print Assumptions C15_dynamic.
Theorem C15_static : ∀ s i q n, reachable s → ss_open s !! i = Some (Some (QStat q)) →
  match iter_static q n (ss_world s) with
  | Done rs w' ev => w' = ss_world s ∧ ev = [] ∧ length rs = n ∧ fused rs
  | Panicked r w' ev => w' = ss_world s ∧ ev = [] ∧ ∃ fs, sq_fetches q = Some fs ∧ left_over (ss_world s) fs
  | _ => False
  end.
Proof. exact open_static_fused. Qed.
Print Assumptions C15_static.
Theorem C15_columns : ∀ s i q n, reachable s → ss_open s !! i = Some (Some (QDyn q)) →
  match iter_cols q n (ss_world s) with
  | Done rs w' ev => w' = ss_world s ∧ ev = [] ∧ length rs = n ∧ fused rs
  | Panicked r w' ev => w' = ss_world s ∧ ev = [] ∧ left_over (ss_world s) (dq_fetches q)
  | _ => False
  end.
Proof. exact open_cols_fused. Qed.
Print Assumptions C15_columns.

(** C38 *)
Theorem C38_get_agrees : ∀ s i q e t, reachable s → ss_open s !! i = Some (Some (QStat q)) →
  param_ty <$> sq_params q = [Some t] →
  match sq_get q e (ss_world s) with
  | Done o w' ev => step (OHas e t) (ss_world s) = Done (RBool (bool_decide (is_Some o))) (ss_world s) []
  | Panicked r w' ev => step (OHas e t) (ss_world s) = Panicked r (ss_world s) [] ∨
      ((∀ c, ¬ type_id (ss_world s) t c) ∧ step (OHas e t) (ss_world s) = Done (RBool false) (ss_world s) [])
  | _ => False
  end.
Proof. exact open_get_has. Qed.
Print Assumptions C38_get_agrees.

(** C40, C41: what creating a query does in any session from which no query was leaked. *)
Theorem C40_open_dynamic : ∀ l s fs, steps sess_new l s → no_forget l → Forall fetch_wf fs →
  match sstep (SOpenDyn fs) s with
  | Done r s' ev => ev = [] ∧ r = SHandle (length (ss_open s)) ∧ same_view (ss_world s) (ss_world s') ∧
      (∃ q, ss_open s' = ss_open s ++ [Some (QDyn q)] ∧ dq_fetches q = fs) ∧
      exclusive (ss_world s) (open_fetches s ++ fs)
  | Panicked r s' ev => ev = [] ∧ same_view (ss_world s) (ss_world s') ∧ ss_open s' = ss_open s ∧
      r = RPoisoned ∧ ¬ no_unwinding l
  | Deadlock => ¬ exclusive (ss_world s) (open_fetches s ++ fs)
  | UB => False
  end.
Proof. exact open_dyn_view. Qed.
Print Assumptions C40_open_dynamic.
Theorem C40_open_static : ∀ l s ps, steps sess_new l s → no_forget l → Forall param_wf ps → Forall param_tame ps →
  match sstep (SOpenStat ps) s with
  | Done r s' ev => ev = [] ∧ r = SHandle (length (ss_open s)) ∧ same_view (ss_world s) (ss_world s') ∧
      (∃ q, ss_open s' = ss_open s ++ [Some (QStat q)] ∧ sq_params q = ps ∧
         match sq_fetches q with
         | Some fs => Forall2 (asks (ss_world s)) ps fs ∧ exclusive (ss_world s) (open_fetches s ++ fs)
         | None => unregistered (ss_world s) ps
         end)
  | Panicked r s' ev => ev = [] ∧ same_view (ss_world s) (ss_world s') ∧ ss_open s' = ss_open s ∧
      ((r = RPoisoned ∧ ¬ no_unwinding l) ∨ (r = RIndex ∧ not_in_use (ss_world s) ps))
  | Deadlock => ∃ fs, Forall2 (asks (ss_world s)) ps fs ∧ ¬ exclusive (ss_world s) (open_fetches s ++ fs)
  | UB => False
  end.
Proof. exact open_stat_view. Qed.
Print Assumptions C40_open_static.
(** When creation succeeds. *)
Theorem C40_dynamic_succeeds : ∀ l s fs, steps sess_new l s → no_forget l → no_unwinding l → Forall fetch_wf fs →
  exclusive (ss_world s) (open_fetches s ++ fs) →
  ∃ s' q, sstep (SOpenDyn fs) s = Done (SHandle (length (ss_open s))) s' [] ∧
    ss_open s' = ss_open s ++ [Some (QDyn q)] ∧ dq_fetches q = fs ∧ same_view (ss_world s) (ss_world s').
Proof. exact creates_dyn. Qed.
Print Assumptions C40_dynamic_succeeds.
Theorem C40_static_succeeds : ∀ l s ps, steps sess_new l s → no_forget l → no_unwinding l →
  Forall param_wf ps → Forall param_tame ps →
  (∀ fs, Forall2 (asks (ss_world s)) ps fs → exclusive (ss_world s) (open_fetches s ++ fs)) →
  ¬ not_in_use (ss_world s) ps →
  ∃ s' q, sstep (SOpenStat ps) s = Done (SHandle (length (ss_open s))) s' [] ∧
    ss_open s' = ss_open s ++ [Some (QStat q)] ∧ sq_params q = ps ∧ same_view (ss_world s) (ss_world s').
Proof. exact creates_static. Qed.
Print Assumptions C40_static_succeeds.
Theorem C40_never_panics_refuted : ∃ s t c s' s'' q, reachable s ∧ sop_legal (SOpenStat [PRef t]) s ∧
  sop_tame (SOpenStat [PRef t]) s ∧ type_id (ss_world s) t c ∧ lives (ss_world s) c ∧
  sstep (SOpenStat [PRef t]) s = Panicked RIndex s' [] ∧
  sstep (SOpenDyn [FImmut c]) s = Done (SHandle 0) s'' [] ∧ ss_open s'' !! 0 = Some (Some (QDyn q)) ∧
  iter_dyn q 1 (ss_world s'') = Done [None] (ss_world s'') [].
Proof. exact unused_type_panics. Qed.
Print Assumptions C40_never_panics_refuted.
(** Such a panic can make later queries over other components fail. *)
Theorem C40_panic_harmless_refuted : ∃ s t t' s' s'', reachable s ∧ types_in_use (ss_world s) [PRef t] ∧
  sstep (SOpenStat [PMut t; PRef t']) s = Panicked RIndex s' [] ∧ reachable s' ∧ ss_open s' = [] ∧
  types_in_use (ss_world s') [PRef t] ∧ sstep (SOpenStat [PRef t]) s' = Panicked RPoisoned s'' [].
Proof. exact unused_type_poisons. Qed.
Print Assumptions C40_panic_harmless_refuted.

(** C41: also for sessions with leaked queries. *)
Theorem C41_exclusive : ∀ s, reachable s → exclusive (ss_world s) (open_fetches s).
Proof. exact open_exclusive. Qed.
Print Assumptions C41_exclusive.

(** C42 *)
Theorem C42_drop_releases : ∀ s o r s' ev, reachable s → opens o → sstep o s = Done r s' ev →
  ∃ i, r = SHandle i ∧ sstep (SDrop i false) s' = Done SNothing (Sess (ss_world s) (ss_open s ++ [None])) [].
Proof. exact opens_released. Qed.
Print Assumptions C42_drop_releases.

(** C43 *)
Theorem C43_apart : ∀ s i fs n ps j c p i' fs' n' ps' j' f p', reachable s →
  open_row s i fs n ps → fs !! j = Some (FMut c) → ps !! j = Some p →
  open_row s i' fs' n' ps' → fs' !! j' = Some f → ps' !! j' = Some p' →
  (i, n, j) ≠ (i', n', j') →
  apart p (fetch_size (ss_world s) (FMut c)) p' (fetch_size (ss_world s) f).
Proof. exact open_apart. Qed.
Print Assumptions C43_apart.
Theorem C43_in_bounds : ∀ s i fs n ps j f p, reachable s → open_row s i fs n ps →
  fs !! j = Some f → ps !! j = Some p → in_bounds (ss_world s) p (fetch_size (ss_world s) f).
Proof. exact open_row_bounds. Qed.
Print Assumptions C43_in_bounds.
Theorem C43_aligned : ∀ s i fs n ps j f c cm p, reachable s → open_row s i fs n ps →
  fs !! j = Some f → fetch_id f = Some c → ps !! j = Some p → recorded (ss_world s) c cm →
  cm_size cm ≠ 0 → cm_size cm mod l_align (cm_layout cm) = 0 →
  col_aligned (ss_world s) p (l_align (cm_layout cm)) = true.
Proof. exact open_row_aligned. Qed.
Print Assumptions C43_aligned.
Theorem C43_odd_layouts_refuted : ∃ s i fs n ps j c cm p, reachable s ∧ open_row s i fs n ps ∧
  fs !! j = Some (FMut c) ∧ ps !! j = Some p ∧ recorded (ss_world s) c cm ∧ layout_wf (cm_layout cm) ∧
  col_aligned (ss_world s) p (l_align (cm_layout cm)) = false.
Proof. exact second_misaligned. Qed.
Print Assumptions C43_odd_layouts_refuted.
Theorem C43_row_shows : ∀ s i fs n ps, reachable s → open_row s i fs n ps →
  ∃ e, wanted (ss_world s) fs e ∧ shows_row (ss_world s) fs e ps.
Proof. exact open_row_shows. Qed.
Print Assumptions C43_row_shows.

(** C44 *)
Theorem C44_zero_sized_refuted : ∃ s t s' q, reachable s ∧ ty_wf t ∧ ty_size t = 0 ∧
  sstep (SOpenStat [PRef t]) s = Done (SHandle 0) s' [] ∧ ss_open s' !! 0 = Some (Some (QStat q)) ∧
  iter_static q 1 (ss_world s') = UB.
Proof. exact misaligned_unit. Qed.
Print Assumptions C44_zero_sized_refuted.
(** It is so for every such query: each access to a row is undefined, and nothing else is. *)
Theorem C44_always : ∀ s ps i s' q, reachable s → Forall param_wf ps →
  ¬ Forall (λ p, ∀ t, param_ty p = Some t → ty_size t ≠ 0 ∨ ty_align t = 1) ps →
  sstep (SOpenStat ps) s = Done (SHandle i) s' [] → ss_open s' !! i = Some (Some (QStat q)) →
  (∀ e, wants (ss_world s') ps e → sq_get q e (ss_world s') = UB) ∧
  (∀ e, ¬ wants (ss_world s') ps e → ¬ unissued (ss_world s') e →
     sq_get q e (ss_world s') = Done None (ss_world s') []) ∧
  ((∃ e, wants (ss_world s') ps e) → ∀ n, iter_static q (S n) (ss_world s') = UB) ∧
  ((∀ e, ¬ wants (ss_world s') ps e) → types_in_use (ss_world s') ps ∨ unregistered (ss_world s') ps →
     ∀ n, iter_static q n (ss_world s') = Done (replicate n None) (ss_world s') []).
Proof. exact open_misaligned. Qed.
Print Assumptions C44_always.

(** C45 *)
Theorem C45_store : ∀ s i n j v, reachable s → sop_legal (SStore i n j v) s →
  match sstep (SStore i n j v) s with
  | Done r s' ev => r = SNothing ∧ ev = [] ∧ ss_open s' = ss_open s ∧
      ((s' = s ∧ ∀ fs ps, open_row s i fs n ps → ps !! j = None) ∨
       ∃ fs ps c e, open_row s i fs n ps ∧ fs !! j = Some (FMut c) ∧ shows_row (ss_world s) fs e ps ∧
         same_lives (ss_world s) (ss_world s') ∧ same_stored (ss_world s) (ss_world s') ∧
         same_types (ss_world s) (ss_world s') ∧ sets (ss_world s) (ss_world s') e c v)
  | Panicked r s' ev => s' = s ∧ ev = [] ∧
      ∃ q fs, ss_open s !! i = Some (Some q) ∧ oq_fetches (ss_world s) q = Some fs ∧ left_over (ss_world s) fs
  | _ => False
  end.
Proof. exact open_store. Qed.
Print Assumptions C45_store.
