(** * Model of the benches with dynamic components, as whole programs *)
From Verif Require Export IterBench ForEachDyn.

(** [world.spawn_with_component_meta(p.1)], or [world.spawn()] if that is [cm_unit], followed by
    [.with_dynamic_with_data(..)] for each of [p.2] and [.build()]. *)
Definition spawn_dynamic (p : component_meta * list (ecsid * value)) : op :=
  OSpawn None p.1 (((λ q, BWithDynData q.1 q.2) <$> p.2) ++ [BBuild]) BDrop.
(** One after the other; returns the entities. *)
Fixpoint spawn_dynamics (ps : list (component_meta * list (ecsid * value))) : M sess (list ecsid) :=
  match ps with
  | [] => ret []
  | p :: ps' =>
      let* r := sstep (SWorld (spawn_dynamic p)) in
      match r with
      | SRet (RId e) => let* es := spawn_dynamics ps' in ret (e :: es)
      | _ => ub                                  (* [build] gives an id *)
      end
  end.
(** benches/bench_dynamic.rs, lines 12-67, 77-117, 127-167, 177-217, 237-294 and 304-363: [new] makes
    components with the metas [cms]; let [cs] be their ids.  It then spawns entities with the components
    [ls cs], and [run], a loop over a query for [xs cs], is called [m] times.  The world is not dropped. *)
Definition dyn_bench (cms : list component_meta) (ls : list ecsid → list (list (ecsid * value))) (xs : list ecsid → list fetch)
    (g : list item → list (option value)) (fuel m : nat) : M fsess (list ecsid * list ecsid) :=
  let* cs := in_sess (spawn_dynamics ((λ cm, (cm, [])) <$> cms)) in
  let* es := in_sess (spawn_dynamics ((λ l, (cm_unit, l)) <$> ls cs)) in
  do* run_dynamics (xs cs) g fuel m in ret (cs, es).
