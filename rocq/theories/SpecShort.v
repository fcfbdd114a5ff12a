(** * Executions without conditions on the state (C64) *)
From Verif Require Export SpecWorld.

(** What is asked of a call besides being legal.  This depends on its arguments only. *)
Definition simple_call (o : sop) : Prop :=
  match o with
  | SWorld (OSpawn _ _ bs _) => bops_builds bs ≤ 1
  | SOpenStat ps => Forall (λ p, ∀ t, param_ty p = Some t → ty_size t ≠ 0 ∨ ty_align t = 1) ps
  | _ => True
  end.
(** The executions from [World::new()] that consist of such calls; panics as in [steps]. *)
Inductive runs : list (sop * res * list event) → sess → Prop :=
| runs_nil : runs [] sess_new
| runs_done l s o r s' ev : runs l s → sop_legal o s → simple_call o →
    sstep o s = Done r s' ev → runs (l ++ [(o, ROk r, ev)]) s'
| runs_panic l s o r s' ev : runs l s → sop_legal o s → simple_call o →
    sstep o s = Panicked r s' ev → r ≠ RCapacity → r ≠ RColumnLength → runs (l ++ [(o, RPanic r, ev)]) s'.
