(** * Base: outcome monad, identifiers and machine constants.

    Shared vocabulary of the model.  Nothing here models a particular Rust function
    except where a citation says so; paths are relative to /repo. *)
From stdpp Require Export prelude gmap.
Global Set Default Proof Using "Type".

(** ** Machine constants (64-bit target, as assumed by the repo's own tests,
    arche_tape/src/tests/bitset_iterator.rs:29 which expects bit 64 in word 1). *)
Definition u32_modulus : N := 2 ^ 32.
Definition u32_max : N := u32_modulus - 1.
Definition wrap32 (n : N) : N := n mod u32_modulus.      (* [x as u32] *)
Definition usize_bits : nat := 64.                       (* [usize::BITS] *)
Definition isize_max : N := 2 ^ 63 - 1.                  (* [isize::MAX as usize] *)

(** ** Memory cells.  A cell is a [MaybeUninit<u8>]; [None] is uninitialised.
    Bytes are only ever moved by the code, never inspected, so any [N] will do. *)
Definition cell : Type := option N.
Definition value : Type := list cell.

(** ** EcsId (arche_tape/src/entities.rs:30-31): generation first, then index. *)
Record ecsid := EcsId { id_gen : N; id_idx : N }.

Global Instance ecsid_eq_dec : EqDecision ecsid.
Proof. solve_decision. Defined.
Global Instance ecsid_countable : Countable ecsid.
Proof.
  refine (inj_countable' (λ i, (id_gen i, id_idx i)) (λ p, EcsId p.1 p.2) _).
  by intros [].
Defined.

(** ** Type descriptors.  A Rust type used as a component: its [TypeId] together with its
    size and alignment (the two are functions of the type; keeping them in the key lets
    the model do without a global type table). *)
Record ty := Ty { ty_id : N; ty_size : nat; ty_align : nat }.
Global Instance ty_eq_dec : EqDecision ty.
Proof. solve_decision. Defined.
Global Instance ty_countable : Countable ty.
Proof.
  refine (inj_countable' (λ t, (ty_id t, ty_size t, ty_align t))
                         (λ p, Ty p.1.1 p.1.2 p.2) _).
  by intros [].
Defined.

(** Destructor identities: [drop_in_place::<T>] (world.rs:232-234) or some other function
    pointer supplied through the public field [ComponentMeta::drop_fn]. *)
Inductive dropfn := DropOf (t : ty) | DropFn (n : N).
Global Instance dropfn_eq_dec : EqDecision dropfn.
Proof. solve_decision. Defined.

(** Observable side effects: a destructor ran on these bytes. *)
Inductive event := EvDrop (f : dropfn) (v : value).
Global Instance event_eq_dec : EqDecision event.
Proof. solve_decision. Defined.

(** ** Panics.  One constructor per kind of panic site. *)
Inductive reason :=
| RNoGeneration      (* entities.rs:133 "could not get generation for .." *)
| RSlotAlive         (* entities.rs:98 assert *)
| ROutOfIds          (* entities.rs:110 todo! *)
| RIndex             (* slice/Vec/HashMap index out of range *)
| RUnwrap            (* unwrap on None *)
| RAssert            (* other assert! *)
| RComponentInUse    (* world.rs:347 todo! *)
| RDeadComponent     (* entity_builder.rs:198 expect *)
| RDuplicate         (* entity_builder.rs:335-338 assert *)
| RColumnLength      (* entity_builder.rs:255-261 assert *)
| RRemZero           (* remainder by zero *)
| RCapacity          (* allocation size limit exceeded *)
| RPoisoned          (* unwrap on a PoisonError *)
| RDestructor.       (* the destructor of a component panics; only in DropPanic.v *)
Global Instance reason_eq_dec : EqDecision reason.
Proof. solve_decision. Defined.

(** ** Outcomes.  [Panicked] carries the state reached at the panic (after unwinding has
    dropped the locals), because [catch_unwind] makes it observable.
    [UB] stands for undefined behaviour, and also for exhausted recursion fuel, so that
    no theorem can hold because a loop ran out of fuel.
    [Deadlock]: a lock request that can never be granted (single thread). *)
Inductive outcome (S A : Type) :=
| Done (a : A) (s : S) (ev : list event)
| Panicked (r : reason) (s : S) (ev : list event)
| Deadlock
| UB.
Arguments Done {S A} _ _ _.
Arguments Panicked {S A} _ _ _.
Arguments Deadlock {S A}.
Arguments UB {S A}.

Definition M (S A : Type) : Type := S → outcome S A.

Definition ret {S A} (a : A) : M S A := λ s, Done a s [].
Definition panic {S A} (r : reason) : M S A := λ s, Panicked r s [].
Definition ub {S A} : M S A := λ _, UB.
Definition deadlock {S A} : M S A := λ _, Deadlock.
Definition add_events {S A} (ev : list event) (o : outcome S A) : outcome S A :=
  match o with
  | Done a s e => Done a s (ev ++ e)
  | Panicked r s e => Panicked r s (ev ++ e)
  | Deadlock => Deadlock
  | UB => UB
  end.
Definition bind {S A B} (m : M S A) (k : A → M S B) : M S B := λ s,
  match m s with
  | Done a s' ev => add_events ev (k a s')
  | Panicked r s' ev => Panicked r s' ev
  | Deadlock => Deadlock
  | UB => UB
  end.

Declare Scope m_scope.
Delimit Scope m_scope with M.
Notation "'let*' x := m 'in' k" := (bind m (λ x, k))
  (at level 200, x name, m at level 100, k at level 200, right associativity) : m_scope.
Notation "'let*' ' p := m 'in' k" := (bind m (λ p, k))
  (at level 200, p strict pattern, m at level 100, k at level 200, right associativity) : m_scope.
Notation "'do*' m 'in' k" := (bind m (λ _, k))
  (at level 200, m at level 100, k at level 200, right associativity) : m_scope.
Global Open Scope m_scope.

Definition gets {S A} (f : S → A) : M S A := λ s, Done (f s) s [].
Definition modify {S} (f : S → S) : M S () := λ s, Done () (f s) [].
Definition emit {S} (ev : list event) : M S () := λ s, Done () s ev.
Definition massert {S} (b : bool) (r : reason) : M S () :=
  if b then ret () else panic r.
Definition unwrap {S A} (o : option A) (r : reason) : M S A :=
  match o with Some a => ret a | None => panic r end.
Definition or_ub {S A} (o : option A) : M S A :=
  match o with Some a => ret a | None => ub end.

(** Run a computation on a component of the state; [None] from the getter is an
    out-of-range index.  The component is written back even when the computation panics. *)
Definition zoom {S T A} (get : S → option T) (set : T → S → S) (m : M T A) : M S A := λ s,
  match get s with
  | None => Panicked RIndex s []
  | Some t =>
      match m t with
      | Done a t' ev => Done a (set t' s) ev
      | Panicked r t' ev => Panicked r (set t' s) ev
      | Deadlock => Deadlock
      | UB => UB
      end
  end.

(** Drop local variables while unwinding: [cleanup] yields the destructor calls, or [None]
    if dropping them would be undefined behaviour. *)
Definition on_unwind {S A} (m : M S A) (cleanup : option (list event)) : M S A := λ s,
  match m s with
  | Panicked r s' ev =>
      match cleanup with Some ev' => Panicked r s' (ev ++ ev') | None => UB end
  | o => o
  end.

(** ** Vec helpers.  [Vec::swap_remove]: the last element takes the place of the removed
    one; [None] is the out-of-range panic. *)
Definition vec_swap_remove {A} (i : nat) (l : list A) : option (list A) :=
  if decide (i < length l) then
    match last l with
    | Some x => Some (take (length l - 1) (<[i := x]> l))
    | None => None
    end
  else None.

(** [slice::sort] / [sort_by]: a stable sort.  Insertion sort is one; on lists without
    duplicate keys every sort gives the same result (ProofBase.sort_unique). *)
Fixpoint insert_by {A} (leb : A → A → bool) (x : A) (l : list A) : list A :=
  match l with
  | [] => [x]
  | y :: l' => if leb x y then x :: y :: l' else y :: insert_by leb x l'
  end.
Definition sort_by {A} (leb : A → A → bool) (l : list A) : list A :=
  foldr (insert_by leb) [] l.

(** derived [Ord] of EcsId: lexicographic on (generation, index), entities.rs:30-31. *)
Definition ecsid_leb (a b : ecsid) : bool :=
  (id_gen a <? id_gen b)%N || ((id_gen a =? id_gen b)%N && (id_idx a <=? id_idx b)%N).
