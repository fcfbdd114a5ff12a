(** * Concrete cases meeting the hypotheses of the theorems in PropsIds.
    These are tests and witnesses, not proofs of the properties. *)
From Verif Require Import ProofBase SpecIds ProofEntities ExamplesBase ExamplesWorld ProofRefutedQuery ExamplesQuery ProofIds.

(** Play some calls; count how often slot [k] of the entity table becomes occupied. *)
Fixpoint count_births (k : N) (l : list sop) (s : sess) (n : N) : option (list (sop * res * list event) * sess * N) :=
  match l with
  | [] => Some ([], s, n)
  | o :: l =>
      match play [o] s with
      | Some ([(r, ev)], s') =>
          let b := match slot s' k with Some (true, _) => negb (bool_decide (slot s' k = slot s k)) | _ => false end in
          '(tr, s2, n2) ← count_births k l s' (if b then N.succ n else n); Some ((o, r, ev) :: tr, s2, n2)
      | _ => None
      end
  end.
Lemma count_births_ok k l s0 l0 s n tr s' n' : reachable s → (k < u32_modulus)%N → births k s0 l0 s n →
  count_births k l s n = Some (tr, s', n') → births k s0 (l0 ++ tr) s' n'.
Proof.
  intros Hr Hk. revert l0 s n tr Hr. induction l as [|o l IH]; intros l0 s n tr Hr Hb E; cbn [count_births] in E.
  { simplify_eq. by rewrite app_nil_r. }
  destruct (play [o] s) as [[[|[r ev] [|]] s1]|] eqn:Ep; [done| |done..]. apply play_trace in Ep. cbn in Ep.
  assert (reachable s1) as R1 by by eapply reachable_steps.
  destruct (count_births k l s1 _) as [[[tr1 s2] n2]|] eqn:Ec in E; [|done]. cbn in E. simplify_eq.
  rewrite cons_middle app_assoc. eapply IH; [exact R1| |exact Ec]. pose proof (born_slot _ _ _ k Hr R1 Ep Hk) as Hx.
  destruct (slot s1 k) as [[[] g]|] eqn:Es; cbn.
  - destruct (bool_decide (Some (true, g) = slot s k)) eqn:Ed; cbn.
    + apply bool_decide_eq_true in Ed. eapply births_same; [done..|]. rewrite Hx. by intros [? _].
    + apply bool_decide_eq_false in Ed. eapply births_born; [done..|]. rewrite Hx. eauto.
  - eapply births_same; [done..|]. rewrite Hx. by intros [_ [? ?]].
  - eapply births_same; [done..|]. rewrite Hx. by intros [_ [? ?]].
Qed.
Definition counted (k : N) (l : list sop) : option (list (sop * res * list event) * sess * N) := count_births k l sess_new 0.
Lemma counted_ok k l tr s n : (k < u32_modulus)%N → counted k l = Some (tr, s, n) → births k sess_new tr s n.
Proof. intros Hk H. eapply (count_births_ok k l sess_new []); [|done|constructor|exact H]. exists []. constructor. Qed.

(** In the history of ExamplesWorld.v index 0 is handed out once, index 8 twice, index 9 never. *)
Definition idops : list sop := SWorld <$> xops.
Definition ends_in (k n : N) : Prop := ∃ tr, births k sess_new tr (splay idops) n ∧ length tr = length idops.
Lemma ends_in_ok k n : (k < u32_modulus)%N →
  match counted k idops with Some (tr, s, m) => bool_decide (length tr = length idops) && N.eqb m n | None => false end = true →
  (∀ tr s m, counted k idops = Some (tr, s, m) → s = splay idops) → ends_in k n.
Proof.
  intros Hk. destruct (counted k idops) as [[[tr s] m]|] eqn:E; [|done]. intros [H1%bool_decide_eq_true H2%N.eqb_eq]%andb_true_iff H3.
  exists tr. split; [|done]. rewrite -(H3 _ _ _ eq_refl) -H2. by apply (counted_ok _ idops).
Qed.
Ltac ends := apply ends_in_ok; [done|vm_compute; reflexivity|]; intros tr s m H; vm_compute in H; injection H as _ <- _; vm_compute; reflexivity.
Example C57_case : ends_in 0 1 ∧ ends_in 8 2 ∧ ends_in 9 0 ∧ reachable_world xw ∧
  lives xw (EcsId 0 0) ∧ lives xw (EcsId 1 8) ∧ ¬ lives xw (EcsId 0 8) ∧ unissued xw (EcsId 0 9).
Proof. split_and!; [ends..|xdone| | | |]; vm_compute; try reflexivity. discriminate. Qed.
(** The call that despawns entity 8, and what follows it. *)
Example C57_dead_case : let s := splay (SWorld <$> take 8 xops) in
  reachable s ∧ lives (ss_world s) (EcsId 0 8) ∧ ¬ lives (ss_world (splay (SWorld <$> take 9 xops))) (EcsId 0 8) ∧
  match play [SWorld (ODespawn (xid 8))] s with
  | Some (_, s1) => match count_births 8 (SWorld <$> drop 9 xops) s1 0 with Some (_, _, n) => n = 1%N | None => False end
  | None => False
  end.
Proof. split_and!; [ydone|ydone| |vm_compute; reflexivity]. vm_compute. discriminate. Qed.
(** Index 8 is new when the sixth call hands it out; the ones below are alive then. *)
Example C57_dense_case : let s := splay (SWorld <$> take 5 xops) in let s' := splay (SWorld <$> take 6 xops) in
  reachable s ∧ unissued (ss_world s) (EcsId 0 8) ∧ lives (ss_world s') (EcsId 0 8) ∧
  Forall (λ k, lives (ss_world s') (EcsId 0 k)) [0; 1; 2; 3; 4; 5; 6; 7]%N.
Proof. split_and!; [ydone|vm_compute; reflexivity|ydone|]. repeat (apply Forall_cons; split; [vm_compute; reflexivity|]). apply Forall_nil_2. Qed.
