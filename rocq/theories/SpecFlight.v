(** * What iterators kept across other calls should answer *)
From Verif Require Export SpecQuery Flight.

(** [ps] is a row of pointers that the iterator of query [i] handed out in its [n]-th answer;
    an answer of [column_iter] stands for several rows, of which this is the [r]-th. *)
Definition held_row (f : fsess) (i n r : nat) (fs : list fetch) (ps : list qptr) : Prop :=
  ∃ q fl, ss_open (fs_sess f) !! i = Some (Some q) ∧ oq_fetches (ss_world (fs_sess f)) q = Some fs ∧
    fs_iters f !! i = Some fl ∧
    match fl with
    | FlRows _ seen | FlRefs _ seen => r = 0 ∧ seen !! n = Some (Some ps)
    | FlCols _ seen => ∃ col, seen !! n = Some (Some col) ∧
                              column_rows (ss_world (fs_sess f)) fs col !! r = Some ps
    end.
(** The pointers of an answer of a static query. *)
Definition row_ptrs (o : option (list (qptr * item))) : option (list qptr) := (λ l, l.*1) <$> o.
(** [f] with one more answer of the iterator of query [i]. *)
Definition answered (f : fsess) (i : nat) (fl : flight) : fsess := FSess (fs_sess f) (<[i := fl]> (fs_iters f)).
(** [f] without the iterator of query [i]. *)
Definition ended (f : fsess) (i : nat) : fsess := FSess (fs_sess f) (delete i (fs_iters f)).
(** The calls of [History] that an entry of a history with iterators comes to: starting,
    advancing and ending iterators leaves no trace, a write through a pointer handed out
    earlier is one through the same pointer of an iteration made now. *)
Inductive plainly : fop * fres * list event → list (sop * res * list event) → Prop :=
| plain_call o r ev : plainly (FCall o, FOk (FRet r), ev) [(o, ROk r, ev)]
| plain_panic o r ev : plainly (FCall o, FPanic r, ev) [(o, RPanic r, ev)]
| plain_store i n j r v n' : plainly (FStore i n j r v, FOk FNothing, []) [(SStore i n' j v, ROk SNothing, [])]
| plain_none o x : (∀ o', o ≠ FCall o') → plainly (o, x, []) [].
