(** * Executions that go on after a destructor panicked (C58) *)
From Verif Require Import ProofBase SpecWorld SpecQuery ProofKnown ExamplesBase ProofRefuted ProofRefutedQuery SpecRough ProofDropPanicRefuted.

(** The world after the calls [l], the destructor calls made, and those owed for the values passed. *)
Fixpoint rplay (bomb : dropfn → value → bool) (l : list op) (w : world) (made gifts : list event) : option (world * list event * list event) :=
  match l with
  | [] => Some (w, made, gifts)
  | o :: l' =>
      if op_legal_b o w && op_tame_b o w then
        match step_b bomb o w with
        | Done _ w' ev => rplay bomb l' w' (made ++ ev) (gifts ++ gift w' o)
        | Panicked r w' ev =>
            if decide (r = RDestructor ∨ harmless bomb ev) then rplay bomb l' w' (made ++ ev) (gifts ++ gift w' o) else None
        | _ => None
        end
      else None
  end.
Lemma rplay_rough bomb l w made gifts w' made' gifts' : rough bomb w made gifts → rplay bomb l w made gifts = Some (w', made', gifts') → rough bomb w' made' gifts'.
Proof.
  revert w made gifts. induction l as [|o l IH]; intros w made gifts Hr; cbn [rplay]; [by intros [= -> -> ->]|].
  destruct (op_legal_b o w && op_tame_b o w) eqn:E; [|done]. apply andb_true_iff in E as [El%op_legal_b_ok Et%op_tame_b_ok].
  destruct (step_b bomb o w) as [r w1 ev|r w1 ev| |] eqn:Es; [| |done..].
  - apply IH. by eapply rough_done.
  - case_decide; [|done]. apply IH. by eapply rough_panic.
Qed.
Definition rcalls (bomb : dropfn → value → bool) (l : list op) : world * list event * list event := default (world_new, [], []) (rplay bomb l world_new [] []).
Definition rplays (bomb : dropfn → value → bool) (l : list op) : bool := match rplay bomb l world_new [] [] with Some _ => true | None => false end.
Lemma rcalls_rough bomb l : rplays bomb l = true → rough bomb (rcalls bomb l).1.1 (rcalls bomb l).1.2 (rcalls bomb l).2.
Proof.
  rewrite /rplays /rcalls. destruct (rplay bomb l world_new [] []) as [[[w made] gifts]|] eqn:E; [|done]. intros _.
  by eapply rplay_rough; [apply rough_new|].
Qed.

(** Four entities with A and B and one with B.  The destructor of A panics when A is removed from
    the first of them, and A is added to the last: five entities, but four As, in memory for four. *)
Definition rl : list op :=
  replicate 4 (zspawn [BWith zA (z4 1); BWith zB [Some 10%N; None]; BBuild]) ++
  [zspawn [BWith zB [Some 20%N; None]; BBuild]; ORemove (zid 0) zA; OAdd (zid 6) zA (z4 2)].
Definition rw : world := (rcalls pbomb rl).1.1.
Definition rq : squery := match sq_new [PRef zA] rw with Done q _ _ => q | _ => SQuery [] [] None end.
Lemma rough_query_refuted : ∃ bomb w made gifts t q w1 n, rough bomb w made gifts ∧ ty_wf t ∧ ty_size t ≠ 0 ∧
  sq_new [PRef t] w = Done q w1 [] ∧ iter_static q n w1 = UB.
Proof.
  exists pbomb, rw, (rcalls pbomb rl).1.2, (rcalls pbomb rl).2, zA, rq, (pleft (sq_new [PRef zA] rw)), 5.
  split; [apply rcalls_rough; vm_compute; reflexivity|]. do 3 (split; [zdone|]). vm_compute; reflexivity.
Qed.

(** No destructor panics, but [with] was called twice with the same type: with each attempt, the
    archetype of A and B gets an entity without a B. *)
Definition rl2 : list op :=
  zspawn [BWith zA (z4 1); BWith zB [Some 10%N; None]; BBuild] :: replicate 4 (zspawn [BWith zA (z4 2); BWith zA (z4 3); BBuild]).
Definition rcalm (f : dropfn) (v : value) : bool := false.
Definition rw2 : world := (rcalls rcalm rl2).1.1.
Definition rq2 : squery := match sq_new [PRef zB] rw2 with Done q _ _ => q | _ => SQuery [] [] None end.
Lemma rough_query_plain_refuted : ∃ w made gifts t q w1 n, rough (λ _ _, false) w made gifts ∧ ty_wf t ∧ ty_size t ≠ 0 ∧
  sq_new [PRef t] w = Done q w1 [] ∧ iter_static q n w1 = UB.
Proof.
  exists rw2, (rcalls rcalm rl2).1.2, (rcalls rcalm rl2).2, zB, rq2, (pleft (sq_new [PRef zB] rw2)), 5.
  split; [apply (rcalls_rough rcalm); vm_compute; reflexivity|]. do 3 (split; [zdone|]). vm_compute; reflexivity.
Qed.
