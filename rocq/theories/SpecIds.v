(** * When ids come to life, over whole histories of calls (C57).
    Liveness is what [World::is_alive] reports; nothing else of a world is consulted. *)
From Verif Require Export SpecWorld.

(** Between [w] and [w'] an id with index [k] came to life. *)
Definition born (k : N) (w w' : world) : Prop :=
  ∃ e, id_wf e ∧ id_idx e = k ∧ ¬ lives w e ∧ lives w' e.
(** In [n] of the calls [l], leading from [s0] to [s], an id with index [k] came to life. *)
Inductive births (k : N) (s0 : sess) : list (sop * res * list event) → sess → N → Prop :=
| births_nil : births k s0 [] s0 0
| births_same l s1 n x s2 : births k s0 l s1 n → steps s1 [x] s2 →
    ¬ born k (ss_world s1) (ss_world s2) → births k s0 (l ++ [x]) s2 n
| births_born l s1 n x s2 : births k s0 l s1 n → steps s1 [x] s2 →
    born k (ss_world s1) (ss_world s2) → births k s0 (l ++ [x]) s2 (N.succ n).
