(** * Properties of iterators kept across other calls.  Theorems only; proofs in ProofShape.v,
    ProofFlight*.v, non-vacuity witnesses in ExamplesFlight.v. *)
From Verif Require Import SpecFlight ProofFlightHist.

(** C55: forgetting its iterators, every session with iterators in flight is a session of History,
    so that all theorems about [reachable] apply to it. *)
Theorem C55_sessions : ∀ f, freachable f → reachable (fs_sess f).
Proof. exact freachable_reachable. Qed.
Print Assumptions C55_sessions.
(** C55: a history with iterators in flight comes to a history of History with the same calls,
    answers, panics and destructor calls, so that all theorems about [steps] apply to it. *)
Theorem C55_history : ∀ l f, fsteps fsess_new l f → ∃ ls, Forall2 plainly l ls ∧ steps sess_new (concat ls) (fs_sess f).
Proof. exact flight_history. Qed.
Print Assumptions C55_history.
(** C55: in particular, the condition on the world of the theorems below holds as long as no call
    on the world has panicked. *)
Theorem C55_no_left_over : ∀ l f fs, fsteps fsess_new l f → (∀ o r ev, (FCall (SWorld o), FPanic r, ev) ∉ l) →
  ¬ left_over (ss_world (fs_sess f)) fs.
Proof. exact flight_no_left_over. Qed.
Print Assumptions C55_no_left_over.
(** C55: and every session of History is one with no iterator in flight. *)
Theorem C55_plain : ∀ s, reachable s → freachable (FSess s ∅).
Proof. exact reachable_freachable. Qed.
Print Assumptions C55_plain.
(** C55: no call is undefined behaviour, however iterators, queries and calls on the shared world
    are interleaved; only opening a query can deadlock. *)
Theorem C55_defined : ∀ f o, freachable f → fop_legal o f → fop_tame o f →
  match fstep o f with
  | UB => False
  | Deadlock => ∃ o', o = FCall o' ∧ opens o'
  | _ => True
  end.
Proof. exact flights_defined. Qed.
Print Assumptions C55_defined.
(** C55: [iter] returns an iterator that has answered nothing; if it panics (after a panic left an
    entity half-moved), the query has no iterator. *)
Theorem C55_start : ∀ f i q, freachable f → ss_open (fs_sess f) !! i = Some (Some q) →
  match fstep (FIter i) f with
  | Done r f' ev => r = FNothing ∧ ev = [] ∧
      ∃ fl, f' = answered f i fl ∧ match q, fl with QDyn _, FlRows _ seen | QStat _, FlRefs _ seen => seen = [] | _, _ => False end
  | Panicked r f' ev => f' = ended f i ∧ ev = [] ∧ ∃ fs, oq_fetches (ss_world (fs_sess f)) q = Some fs ∧ left_over (ss_world (fs_sess f)) fs
  | _ => False
  end.
Proof. exact flight_start. Qed.
Print Assumptions C55_start.
(** C55: likewise [column_iter]. *)
Theorem C55_start_columns : ∀ f i q, freachable f → ss_open (fs_sess f) !! i = Some (Some (QDyn q)) →
  match fstep (FColumns i) f with
  | Done r f' ev => r = FNothing ∧ ev = [] ∧ ∃ it, f' = answered f i (FlCols it [])
  | Panicked r f' ev => f' = ended f i ∧ ev = [] ∧ left_over (ss_world (fs_sess f)) (dq_fetches q)
  | _ => False
  end.
Proof. exact flight_start_columns. Qed.
Print Assumptions C55_start_columns.
(** C55: the rows an iterator handed out are the first rows over the entities wanted in the world
    as it is now, and [next] returns the next one, whatever was done since [iter] was called. *)
Theorem C55_rows : ∀ f i it seen q, freachable f → fs_iters f !! i = Some (FlRows it seen) → ss_open (fs_sess f) !! i = Some (Some (QDyn q)) →
  dq_fetches q ≠ [] → ¬ left_over (ss_world (fs_sess f)) (dq_fetches q) →
  ∃ es items, enumerates (wanted (ss_world (fs_sess f)) (dq_fetches q)) es ∧
    Forall2 (shows_row (ss_world (fs_sess f)) (dq_fetches q)) es items ∧ seen = calls (length seen) items ∧
    ∃ it', fstep (FNext i) f = Done (FRow (items !! length seen)) (answered f i (FlRows it' (seen ++ [items !! length seen]))) [].
Proof. exact flight_rows. Qed.
Print Assumptions C55_rows.
(** C55: likewise the columns of [column_iter]. *)
Theorem C55_cols : ∀ f i it seen q, freachable f → fs_iters f !! i = Some (FlCols it seen) → ss_open (fs_sess f) !! i = Some (Some (QDyn q)) →
  dq_fetches q ≠ [] → ¬ left_over (ss_world (fs_sess f)) (dq_fetches q) →
  ∃ es cols, enumerates (wanted (ss_world (fs_sess f)) (dq_fetches q)) es ∧ Forall even_column cols ∧
    Forall2 (shows_row (ss_world (fs_sess f)) (dq_fetches q)) es (cols ≫= column_rows (ss_world (fs_sess f)) (dq_fetches q)) ∧ seen = calls (length seen) cols ∧
    ∃ it', fstep (FNext i) f = Done (FCol (cols !! length seen)) (answered f i (FlCols it' (seen ++ [cols !! length seen]))) [].
Proof. exact flight_cols. Qed.
Print Assumptions C55_cols.
(** C55: likewise the items of a static query; the values are the current ones. *)
Theorem C55_refs : ∀ f i it seen q, freachable f → fs_iters f !! i = Some (FlRefs it seen) → ss_open (fs_sess f) !! i = Some (Some (QStat q)) →
  sq_params q ≠ [] → types_in_use (ss_world (fs_sess f)) (sq_params q) →
  ∃ es items, enumerates (wants (ss_world (fs_sess f)) (sq_params q)) es ∧
    Forall2 (yields_row (ss_world (fs_sess f)) (sq_params q)) es items ∧ seen = row_ptrs <$> calls (length seen) items ∧
    ∃ it', fstep (FNext i) f = Done (FRef (items !! length seen)) (answered f i (FlRefs it' (seen ++ [row_ptrs (items !! length seen)]))) [].
Proof. exact flight_refs. Qed.
Print Assumptions C55_refs.
(** C55: in any world, [next] answers or panics as that call would in an iteration started now. *)
Theorem C55_next : ∀ f i fl, freachable f → fs_iters f !! i = Some fl →
  ∃ q, ss_open (fs_sess f) !! i = Some (Some q) ∧ let w := ss_world (fs_sess f) in
    match fl, q with
    | FlRows it seen, QDyn q => iter_dyn q (length seen) w = Done seen w [] ∧
        match iter_dyn q (S (length seen)) w with
        | Done rs w' ev => w' = w ∧ ev = [] ∧ ∃ o it', rs = seen ++ [o] ∧ fstep (FNext i) f = Done (FRow o) (answered f i (FlRows it' (seen ++ [o]))) []
        | Panicked r w' ev => w' = w ∧ ev = [] ∧ left_over w (dq_fetches q) ∧ fstep (FNext i) f = Panicked r (ended f i) []
        | _ => False
        end
    | FlCols it seen, QDyn q => iter_cols q (length seen) w = Done seen w [] ∧
        match iter_cols q (S (length seen)) w with
        | Done rs w' ev => w' = w ∧ ev = [] ∧ ∃ o it', rs = seen ++ [o] ∧ fstep (FNext i) f = Done (FCol o) (answered f i (FlCols it' (seen ++ [o]))) []
        | Panicked r w' ev => w' = w ∧ ev = [] ∧ left_over w (dq_fetches q) ∧ fstep (FNext i) f = Panicked r (ended f i) []
        | _ => False
        end
    | FlRefs it seen, QStat q => ∃ rs0, iter_static q (length seen) w = Done rs0 w [] ∧ seen = row_ptrs <$> rs0 ∧
        match iter_static q (S (length seen)) w with
        | Done rs w' ev => w' = w ∧ ev = [] ∧ ∃ o it', rs = rs0 ++ [o] ∧ fstep (FNext i) f = Done (FRef o) (answered f i (FlRefs it' (seen ++ [row_ptrs o]))) []
        | Panicked r w' ev => w' = w ∧ ev = [] ∧ (∃ fs, sq_fetches q = Some fs ∧ left_over w fs) ∧ fstep (FNext i) f = Panicked r (ended f i) []
        | _ => False
        end
    | _, _ => False
    end.
Proof. exact flight_next. Qed.
Print Assumptions C55_next.
(** C55: every row in the hands of the caller shows what one wanted entity has now. *)
Theorem C55_shows : ∀ f i n r fs ps, freachable f → held_row f i n r fs ps → fs ≠ [] →
  ∃ e, wanted (ss_world (fs_sess f)) fs e ∧ shows_row (ss_world (fs_sess f)) fs e ps.
Proof. exact flight_shows. Qed.
Print Assumptions C55_shows.
(** C55: every pointer in the hands of the caller is inside a live allocation. *)
Theorem C55_bounds : ∀ f i n r fs ps j g p, freachable f → held_row f i n r fs ps → fs !! j = Some g → ps !! j = Some p →
  in_bounds (ss_world (fs_sess f)) p (fetch_size (ss_world (fs_sess f)) g).
Proof. exact flight_bounds. Qed.
Print Assumptions C55_bounds.
(** C55: what is handed out for writing overlaps nothing else handed out, by whatever iterator. *)
Theorem C55_apart : ∀ f i n r fs ps j c p i' n' r' fs' ps' j' g p', freachable f →
  held_row f i n r fs ps → fs !! j = Some (FMut c) → ps !! j = Some p →
  held_row f i' n' r' fs' ps' → fs' !! j' = Some g → ps' !! j' = Some p' →
  (i, n, r, j) ≠ (i', n', r', j') →
  apart p (fetch_size (ss_world (fs_sess f)) (FMut c)) p' (fetch_size (ss_world (fs_sess f)) g).
Proof. exact flight_apart. Qed.
Print Assumptions C55_apart.
(** C55: writing through a pointer in the hands of the caller sets that component of that entity
    and nothing else, and ends no iterator. *)
Theorem C55_store : ∀ f i n j r v, freachable f → fop_legal (FStore i n j r v) f →
  ∃ f', fstep (FStore i n j r v) f = Done FNothing f' [] ∧ fs_iters f' = fs_iters f ∧ ss_open (fs_sess f') = ss_open (fs_sess f) ∧
    ((f' = f ∧ ∀ fs ps, held_row f i n r fs ps → ps !! j = None) ∨
     ∃ fs ps c e, let w := ss_world (fs_sess f) in let w' := ss_world (fs_sess f') in
       held_row f i n r fs ps ∧ fs !! j = Some (FMut c) ∧ shows_row w fs e ps ∧
       same_lives w w' ∧ same_stored w w' ∧ same_types w w' ∧ sets w w' e c v).
Proof. exact flight_store. Qed.
Print Assumptions C55_store.
