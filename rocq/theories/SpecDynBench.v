(** * Spawning with dynamic components, and looping over them: vocabulary of C71 *)
From Verif Require Export SpecForEachDyn SpecBenches DynBench.

(** The value [p.2] can be given for the component [p.1]. *)
Definition fits_in (w : world) (p : ecsid * value) : Prop := id_wf p.1 ∧ ∃ cm, recorded w p.1 cm ∧ length p.2 = cm_size cm.
Definition ids_bytes (p : component_meta * list (ecsid * value)) : nat := sum_list_with (λ q, length q.2) p.2.
(** After the calls of [h] there is room to spawn [ps]. *)
Definition dyn_roomy (h : list (sop * res * list event)) (w : world) (ps : list (component_meta * list (ecsid * value))) : Prop :=
  (N.of_nat (sum_list_with call_ids (calls_of h) + length ps) <= 2 ^ 32)%N ∧
  (N.of_nat (sum_list_with passed_bytes (calls_of h) + sum_list_with ids_bytes ps) <= byte_limit)%N ∧
  (N.of_nat (Nat.max 1 (length (w_archs w)) + length ps) <= u32_max)%N.
(** What is recorded about the live entities did not change. *)
Definition same_records (w w' : world) : Prop := ∀ c cm, id_wf c → lives w c → recorded w' c cm ↔ recorded w c cm.
(** [w'] is [w] with new entities [es], one for each of [ps], that have these components and these metas. *)
Definition dyn_populated (w w' : world) (ps : list (component_meta * list (ecsid * value))) (es : list ecsid) : Prop :=
  length es = length ps ∧ NoDup es ∧
  (∀ i e p, es !! i = Some e → ps !! i = Some p → id_wf e ∧ ¬ lives w e ∧ lives w' e ∧ stored w' e ∧ recorded w' e p.1) ∧
  (∀ e c x, holds w' e c x ↔ holds w e c x ∨ ∃ i p, es !! i = Some e ∧ ps !! i = Some p ∧ (c, x) ∈ p.2) ∧
  (∀ e, id_wf e → lives w' e ↔ e ∈ es ∨ lives w e) ∧
  (∀ e, stored w' e ↔ e ∈ es ∨ stored w e) ∧
  same_types w w' ∧ same_records w w'.

(** What fetch [x] shows of an entity [e] with the components [l]. *)
Definition item_fetched (e : ecsid) (l : list (ecsid * value)) (x : fetch) : option item :=
  match fetch_id x with
  | None => Some (IEnt e)
  | Some c => IVal <$> (list_to_map l : gmap ecsid value) !! c
  end.
(** What is written through the mutable pointer to component [c], if there is one. *)
Fixpoint written_to (xs : list fetch) (us : list (option value)) (c : ecsid) : option value :=
  match xs, us with
  | FMut c' :: xs', u :: us' => if decide (c' = c) then u else written_to xs' us' c
  | _ :: xs', _ :: us' => written_to xs' us' c
  | _, _ => None
  end.
(** The components of [e] after the body [g] was called for it, if it matches. *)
Definition row_updated (xs : list fetch) (g : list item → list (option value)) (e : ecsid) (l : list (ecsid * value)) : list (ecsid * value) :=
  match mapM (item_fetched e l) xs with
  | None => l
  | Some ys => (λ p, (p.1, default p.2 (written_to xs (g ys) p.1))) <$> l
  end.
(** The entities [es] have the components [ls], each its own, and no other entity has any. *)
Definition tabulates_ids (w : world) (es : list ecsid) (ls : list (list (ecsid * value))) : Prop :=
  ∀ e c x, holds w e c x ↔ ∃ i l, es !! i = Some e ∧ ls !! i = Some l ∧ (c, x) ∈ l.
(** [c] is one of the components [cs], made with the meta [cm]. *)
Definition made_as (cs : list ecsid) (cms : list component_meta) (c : ecsid) (cm : component_meta) : Prop :=
  ∃ i, cs !! i = Some c ∧ cms !! i = Some cm.
(** What the benches see to: values have the size of their component, no component is given twice to
    an entity or fetched mutably and once more; the fetched components could be types of Rust (as
    [castable]), some entity has them, and the body writes values of the right size. *)
Definition sensible (cms : list component_meta) (cs : list ecsid) (ls : list (list (ecsid * value))) (xs : list fetch)
    (g : list item → list (option value)) : Prop :=
  Forall (λ l, NoDup l.*1 ∧ ∀ c v, (c, v) ∈ l → ∃ cm, made_as cs cms c cm ∧ length v = cm_size cm) ls ∧
  xs ≠ [] ∧ unshared_ids xs ∧
  (∀ x c, x ∈ xs → fetch_id x = Some c → (∃ l, l ∈ ls ∧ c ∈ l.*1) ∧
    ∃ cm, made_as cs cms c cm ∧ cm_size cm mod l_align (cm_layout cm) = 0 ∧ (cm_size cm ≠ 0 ∨ l_align (cm_layout cm) = 1)) ∧
  (∀ ys j v, g ys !! j = Some (Some v) → ∃ c cm, xs !! j = Some (FMut c) ∧ made_as cs cms c cm ∧ length v = cm_size cm) ∧
  (N.of_nat (length cms + length ls) + 1 <= u32_max)%N ∧ (N.of_nat (sum_list_with (λ l, sum_list_with (λ q, length q.2) l) ls) <= byte_limit)%N.
(** Destroying the values of [l]; those without bytes, or whose component has no destructor, need none. *)
Definition drops_by (cs : list ecsid) (cms : list component_meta) (l : list (ecsid * value)) : list event :=
  l ≫= λ p, if decide (p.2 = []) then [] else
    match (list_to_map (zip cs cms) : gmap ecsid component_meta) !! p.1 with
    | Some cm => match cm_drop cm with Some f => [EvDrop f p.2] | None => [] end
    | None => []
    end.
