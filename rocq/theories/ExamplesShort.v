(** * Concrete cases meeting the hypotheses of the theorems in PropsShort.
    These are tests and witnesses, not proofs of the properties. *)
From Verif Require Import SpecShort ExamplesBase ProofRefuted.

(** Make the calls [l] one after the other, without a look at tameness. *)
Fixpoint run_on (l : list sop) (s : sess) : option (list (sop * res * list event) * sess) :=
  match l with
  | [] => Some ([], s)
  | o :: l' =>
      if sop_legal_b o s then
        match sstep o s with
        | Done r s' ev => match run_on l' s' with Some (t, s2) => Some ((o, ROk r, ev) :: t, s2) | None => None end
        | Panicked r s' ev =>
            if resumable_b r then match run_on l' s' with Some (t, s2) => Some ((o, RPanic r, ev) :: t, s2) | None => None end
            else None
        | _ => None
        end
      else None
  end.
Lemma run_on_runs l : Forall simple_call l → ∀ t0 s t s2, runs t0 s → run_on l s = Some (t, s2) → runs (t0 ++ t) s2.
Proof.
  induction 1 as [|o l Ho Hl IH]; intros t0 s t s2 H0 E; cbn in E.
  - injection E as <- <-. by rewrite app_nil_r.
  - destruct (sop_legal_b o s) eqn:El; [|done]. apply sop_legal_b_ok in El.
    destruct (sstep o s) as [r s' ev|r s' ev| |] eqn:Es; [| |done..].
    + destruct (run_on l s') as [[t' s3]|] eqn:E'; [|done]. injection E as <- <-.
      change ((o, ROk r, ev) :: t') with ([(o, ROk r, ev)] ++ t'). rewrite app_assoc. eapply IH; [|done]. by eapply runs_done.
    + destruct (resumable_b r) eqn:Er; [|done]. destruct (run_on l s') as [[t' s3]|] eqn:E'; [|done]. injection E as <- <-.
      change ((o, RPanic r, ev) :: t') with ([(o, RPanic r, ev)] ++ t'). rewrite app_assoc. eapply IH; [|done].
      eapply runs_panic; try done; by intros ->.
Qed.
Lemma run_on_end l x : x = default ([], sess_new) (run_on l sess_new) → Forall simple_call l →
  bool_decide (is_Some (run_on l sess_new)) = true → runs x.1 x.2.
Proof.
  intros -> Hl [[t s] E]%bool_decide_eq_true. rewrite E. eapply (run_on_runs l Hl [] sess_new t s); [constructor|done].
Qed.
(** Index 0 is given out, freed and given out again for a type; then the old id is despawned once
    more, which does nothing; a query is opened and dropped; an unknown id panics. *)
Definition shcalls : list sop :=
  [SWorld (zspawn [BBuild]); SWorld (ODespawn (zid 0)); SWorld (ORegister zA); SWorld (ODespawn (zid 0));
   SWorld (zspawn [BWith zA (z4 1); BBuild]); SOpenStat [PRef zA; PEcsIds]; SDrop 0 false; SWorld (OIsAlive (zid 9))].
Definition shend : list (sop * res * list event) * sess := default ([], sess_new) (run_on shcalls sess_new).
Example C64_case : runs shend.1 shend.2 ∧ length shend.1 = 8 ∧
  (N.of_nat (length shend.1) + 2 <= 2 ^ 32)%N ∧ length (w_archs (ss_world shend.2)) = 2 ∧
  type_id (ss_world shend.2) zA (EcsId 1 0) ∧ shend.1 !! 3 = Some (SWorld (ODespawn (zid 0)), ROk (SRet (RBool false)), []) ∧
  shend.1 !! 7 = Some (SWorld (OIsAlive (zid 9)), RPanic RNoGeneration, []).
Proof.
  split.
  { eapply (run_on_end shcalls); [reflexivity| |zdone]. apply Forall_forall. intros o Ho. unfold shcalls in Ho.
    repeat (apply elem_of_cons in Ho as [->|Ho]; [cbn; try done; try lia|]); [|by apply elem_of_nil in Ho].
    constructor; [|constructor; [done|constructor]]. intros t [= <-]. by left. }
  split; [zdone|]. split; [zdone|]. split; [zdone|]. split; [unfold type_id; zdone|]. split; zdone.
Qed.
