(** * Concrete cases meeting the hypotheses of the theorems in PropsMemory.
    These are tests and witnesses, not proofs of the properties. *)
From Verif Require Import ProofBase SpecMemory SpecQuery ExamplesBase ProofRefutedQuery ExamplesWorld ExamplesQuery ProofMemHist.

Fixpoint play_t (l : list sop) (s : sess * mlog) : option (list (sop * res * list event) * (sess * mlog)) :=
  match l with
  | [] => Some ([], s)
  | o :: l' =>
      if sop_legal_b o s.1 && sop_tame_b o s.1 then
        match sstep_t o s with
        | Done r s' ev => '(t, s2) ← play_t l' s'; Some ((o, ROk r, ev) :: t, s2)
        | Panicked r s' ev => if resumable_b r then '(t, s2) ← play_t l' s'; Some ((o, RPanic r, ev) :: t, s2) else None
        | _ => None
        end
      else None
  end.
Lemma play_t_steps l s0 l0 s t s' : steps_t s0 l0 s → play_t l s = Some (t, s') → steps_t s0 (l0 ++ t) s'.
Proof.
  revert l0 s t. induction l as [|o l IH]; intros l0 s t H0 H; cbn [play_t] in H.
  { injection H as <- <-. by rewrite app_nil_r. }
  destruct (sop_legal_b o s.1 && sop_tame_b o s.1) eqn:E; [|done]. apply andb_true_iff in E as [El%sop_legal_b_ok Et%sop_tame_b_ok].
  destruct (sstep_t o s) as [r s1 ev|r s1 ev| |] eqn:Ex; [| |done..].
  - destruct (play_t l s1) as [[t1 s2]|] eqn:Ep; [|done]. injection H as <- <-.
    rewrite cons_middle app_assoc. eapply IH; [|done]. by econstructor.
  - destruct (resumable_b r) eqn:Er; [|done]. destruct (play_t l s1) as [[t1 s2]|] eqn:Ep; [|done]. injection H as <- <-.
    rewrite cons_middle app_assoc. eapply IH; [|done]. econstructor; [done..|]. by destruct r.
Qed.
(** A builder that has to grow, a leaked builder, an entity changing its archetype, a despawn
    and an open query. *)
Definition mops : list sop := (SWorld <$>
  [OSpawn (Some 3) cm_unit [BWith xA (x4 1); BWith xB (x2 10); BBuild] BDrop;
   OSpawn None cm_unit [BWith xB (x2 20); BBuild] BForget;
   ORemove (xid 0) xB; OAdd (xid 0) xB (x2 30); OAdd (xid 0) xB (x2 30);
   spawn_ [BWith xB (x2 20); BBuild];
   ODespawn (xid 3)]) ++ [SOpenDyn [FMut (xid 1)]; SDrop 0 false].
Definition mrun (l : list sop) : list (sop * res * list event) * (sess * mlog) :=
  default ([], (sess_new, [])) (play_t l (sess_new, [])).
Lemma mrun_steps l : match play_t l (sess_new, []) with Some _ => true | None => false end = true → steps_t (sess_new, []) (mrun l).1 ((mrun l).2.1, (mrun l).2.2).
Proof.
  rewrite /mrun. destruct (play_t l (sess_new, [])) as [[t [s lg]]|] eqn:E; [|done]. intros _. cbn [fst snd default].
  eapply (play_t_steps _ _ [] _ _ _ (steps_t_nil _) E).
Qed.
Definition mt := (mrun mops).1. Definition ms := (mrun mops).2.1. Definition mlg := (mrun mops).2.2.
(** One block of six bytes is lost with the leaked builder; five are the world's. *)
Example C53_case : steps_t (sess_new, []) mt (ms, mlg) ∧ steps sess_new mt ms ∧ leaked mt = 1 ∧
  RPanic RAssert ∈ mt.*1.*2 ∧
  mlg = [MAlloc (Layout 3 1); MRealloc (Layout 3 1) 6; MAlloc (Layout 16 4); MAlloc (Layout 8 2);
         MAlloc (Layout 8 2); MAlloc (Layout 16 4); MAlloc (Layout 2 1)] ∧
  owned (ss_world ms) = [Layout 16 4; Layout 8 2; Layout 8 2; Layout 16 4; Layout 2 1] ∧
  live [] mlg = Some [Layout 2 1; Layout 16 4; Layout 8 2; Layout 8 2; Layout 16 4; Layout 6 1] ∧
  snd <$> world_drop_t (ss_world ms) = Some (MFree <$> [Layout 2 1; Layout 16 4; Layout 8 2; Layout 8 2; Layout 16 4]).
Proof.
  split; [apply mrun_steps; by vm_compute|]. split; [eapply (proj1 (log_faithful mt ms) mlg), mrun_steps; by vm_compute|].
  split; [by vm_compute|]. split; [apply elem_of_list_lookup; by exists 4; vm_compute|]. split_and!; by vm_compute.
Qed.
(** The same calls without the leaked builder, and a call to make after them. *)
Definition mops' : list sop := take 1 mops ++ drop 2 (take 6 mops).
Example C53_drop_case : steps_t (sess_new, []) (mrun mops').1 ((mrun mops').2.1, (mrun mops').2.2) ∧
  length (mrun mops').1 = 5 ∧ leaked (mrun mops').1 = 0 ∧ length (owned (ss_world (mrun mops').2.1)) = 5 ∧
  sop_legal_b (SWorld (spawn_ [BWith xZ []; BBuild])) (mrun mops').2.1 = true ∧
  sop_tame_b (SWorld (spawn_ [BWith xZ []; BBuild])) (mrun mops').2.1 = true.
Proof. split; [apply mrun_steps; by vm_compute|]. split_and!; by vm_compute. Qed.
