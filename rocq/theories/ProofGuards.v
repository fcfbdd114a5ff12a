(** * Lock accounting: acquiring and releasing the guards of queries *)
From Verif Require Import ProofBase SpecSmall World History ProofEntities ProofBitset ProofArrayVec ProofUVec.
From Verif Require Export ProofLocks ProofStatic.

Definition count (g : lguard) (gs : list lguard) : nat := length (filter (λ g', g' = g) gs).
Definition guard_in (n : nat) (g : lguard) : Prop :=
  match g with GNone => True | GRead i | GWrite i => i < n end.
(** The state of lock [i] is that produced by the guards [gs]. *)
Definition account (gs : list lguard) (i : nat) (l : rwlock) : Prop :=
  rw_readers l = count (GRead i) gs ∧ count (GWrite i) gs = (if rw_writer l then 1 else 0) ∧
  (rw_writer l = true → rw_readers l = 0).
Definition accounts (ls : list rwlock) (gs : list lguard) : Prop :=
  Forall (guard_in (length ls)) gs ∧ ∀ i l, ls !! i = Some l → account gs i l.

(** The guard acquired for a fetch. *)
Definition guard_of (w : world) (f : fetch) : lguard :=
  match f with
  | FEcsId => GNone
  | FMut c => match w_lock_lookup w !! c with Some i => GWrite i | None => GNone end
  | FImmut c => match w_lock_lookup w !! c with Some i => GRead i | None => GNone end
  end.
Definition unlocked (w : world) (f : fetch) : Prop := ∃ c, fetch_id f = Some c ∧ w_lock_lookup w !! c = None.
(** No two guards of which one is exclusive are for the same lock. *)
Definition compat (gs : list lguard) : Prop :=
  ∀ i j l g, i ≠ j → gs !! i = Some (GWrite l) → gs !! j = Some g → g ≠ GRead l ∧ g ≠ GWrite l.

Lemma count_app g gs gs' : count g (gs ++ gs') = count g gs + count g gs'.
Proof. by rewrite /count filter_app app_length. Qed.
Lemma count_cons g g' gs : count g (g' :: gs) = (if decide (g' = g) then 1 else 0) + count g gs.
Proof. rewrite /count filter_cons. by case_decide. Qed.
Lemma count_perm g gs gs' : gs ≡ₚ gs' → count g gs = count g gs'.
Proof. intros H. rewrite /count. by rewrite H. Qed.
Lemma count_0 g gs : count g gs = 0 ↔ g ∉ gs.
Proof.
  rewrite /count length_zero_iff_nil. induction gs as [|g' gs IH].
  - split; [intros _ ?%elem_of_nil; done|done].
  - rewrite filter_cons elem_of_cons. case_decide as Hg; [subst; split; [done|tauto]|]. rewrite IH. naive_solver.
Qed.
Lemma count_two g gs i j : i ≠ j → gs !! i = Some g → gs !! j = Some g → 2 ≤ count g gs.
Proof.
  revert i j. induction gs as [|g' gs IH]; intros i j Hij Hi Hj; [done|].
  rewrite count_cons. destruct i as [|i], j as [|j]; simpl in Hi, Hj; [done| | |].
  - injection Hi as ->. rewrite decide_True //. assert (count g gs ≠ 0); [|lia]. rewrite count_0. intros H. apply H. by eapply elem_of_list_lookup_2.
  - injection Hj as ->. rewrite decide_True //. assert (count g gs ≠ 0); [|lia]. rewrite count_0. intros H. apply H. by eapply elem_of_list_lookup_2.
  - pose proof (IH i j ltac:(lia) Hi Hj). lia.
Qed.

Lemma account_perm gs gs' i l : gs ≡ₚ gs' → account gs i l → account gs' i l.
Proof. intros H. rewrite /account (count_perm _ _ _ H) (count_perm (GWrite i) _ _ H). done. Qed.
Lemma accounts_perm ls gs gs' : gs ≡ₚ gs' → accounts ls gs → accounts ls gs'.
Proof. intros H [H1 H2]. split; [by rewrite -H|]. intros i l Hl. eapply account_perm; [done|]. by apply H2. Qed.
Lemma accounts_grow ls gs n : accounts ls gs → accounts (ls ++ replicate n rw_new) gs.
Proof.
  intros [H1 H2]. split.
  - eapply Forall_impl; [exact H1|]. intros [|i|i]; simpl; rewrite ?app_length; lia.
  - intros i l [Hl|[Hi Hl]]%lookup_app_Some; [by apply H2|]. apply lookup_replicate in Hl as [-> _].
    rewrite Forall_forall in H1.
    assert (count (GRead i) gs = 0) as Hr. { apply count_0. intros ?%H1. simpl in *. lia. }
    assert (count (GWrite i) gs = 0) as Hv. { apply count_0. intros ?%H1. simpl in *. lia. }
    by rewrite /account Hr Hv.
Qed.
Lemma accounts_compat ls gs : accounts ls gs → compat gs.
Proof.
  intros [H1 H2] i j k g Hij Hi Hj. rewrite Forall_forall in H1.
  pose proof (H1 _ (elem_of_list_lookup_2 _ _ _ Hi)) as Hk. simpl in Hk.
  apply lookup_lt_is_Some in Hk as [l Hl]. destruct (H2 _ _ Hl) as (Hr & Hc & Hx).
  assert (count (GWrite k) gs ≠ 0) as Hn. { rewrite count_0. intros H. apply H. by eapply elem_of_list_lookup_2. }
  destruct (rw_writer l); [|done]. split; intros ->.
  - apply (proj1 (count_0 (GRead k) gs)); [rewrite -Hr; by apply Hx|]. by eapply elem_of_list_lookup_2.
  - pose proof (count_two _ _ _ _ Hij Hi Hj). lia.
Qed.

(** *** Acquiring *)
Definition lock_of (g : lguard) : option nat := match g with GNone => None | GRead i | GWrite i => Some i end.
Lemma in_lock_run {A} i l (m : M rwlock A) w : w_locks w !! i = Some l →
  in_lock i m w = match m l with
                  | Done a l' ev => Done a (set_locks (<[i := l']> (w_locks w)) w) ev
                  | Panicked r l' ev => Panicked r (set_locks (<[i := l']> (w_locks w)) w) ev
                  | Deadlock => Deadlock | UB => UB end.
Proof. intros H. rewrite /in_lock /zoom H. by destruct (m l). Qed.
Lemma set_locks_id w : set_locks (w_locks w) w = w.
Proof. by destruct w. Qed.

Lemma accounts_insert ls gs i l l' g : accounts ls gs → ls !! i = Some l → lock_of g = Some i →
  account (g :: gs) i l' → accounts (<[i := l']> ls) (g :: gs).
Proof.
  intros [H1 H2] Hl Hg Ha. assert (i < length ls) as Hi by by eapply lookup_lt_Some. split.
  - rewrite insert_length. constructor; [|done]. by destruct g; simplify_eq/=.
  - intros i' l1 [(<- & <- & _)|(Hne & Hl1)]%list_lookup_insert_Some; [done|].
    destruct (H2 _ _ Hl1) as (A & B & C). rewrite /account !count_cons.
    rewrite !decide_False; [done|intros ->; by simplify_eq/=..].
Qed.
Lemma unused_lock gs i : ¬ (∃ j g, gs !! j = Some g ∧ lock_of g = Some i) → count (GRead i) gs = 0 ∧ count (GWrite i) gs = 0.
Proof. intros H. split; apply count_0; intros [j Hj]%elem_of_list_lookup; apply H; eauto. Qed.

(** One request, made while the guards [gs] are out. *)
Lemma acquire_write_run w gs i : accounts (w_locks w) gs → i < length (w_locks w) →
  match acquire_write i w with
  | Done g w' ev => g = GWrite i ∧ ev = [] ∧ accounts (w_locks w') (GWrite i :: gs) ∧ release_lock false g w' = w ∧
      ∃ l l', w_locks w !! i = Some l ∧ rw_poisoned l = rw_poisoned l' ∧ w' = set_locks (<[i := l']> (w_locks w)) w
  | Panicked r w' ev => r = RPoisoned ∧ ev = [] ∧ w' = w ∧ ∃ l, w_locks w !! i = Some l ∧ rw_poisoned l = true
  | Deadlock => ∃ j g, gs !! j = Some g ∧ lock_of g = Some i
  | UB => False
  end.
Proof.
  intros Hacc Hi. apply lookup_lt_is_Some in Hi as [l Hl]. rewrite /acquire_write (in_lock_run _ _ _ _ Hl).
  pose proof Hacc as [_ H2]. destruct (H2 _ _ Hl) as (Hr & Hc & Hx). case_decide as Hd.
  - destruct (decide (GRead i ∈ gs)) as [[j Hj]%elem_of_list_lookup|Hn1]; [eauto|].
    destruct (decide (GWrite i ∈ gs)) as [[j Hj]%elem_of_list_lookup|Hn2]; [eauto|].
    apply count_0 in Hn1, Hn2. exfalso. destruct Hd as [Hd|Hd]; [lia|]. rewrite Hd in Hc. lia.
  - assert (rw_readers l = 0) as Hr0 by lia. assert (rw_writer l = false) as Hw0. { destruct (rw_writer l); [|done]. exfalso. apply Hd. by right. }
    destruct (rw_poisoned l) eqn:Hp.
    + rewrite list_insert_id // set_locks_id. eauto 10.
    + split_and!; [done..| | |].
      * eapply accounts_insert; [done..|]. rewrite /account !count_cons /=. rewrite Hw0 in Hc. rewrite decide_True //. split_and!; [lia|lia|done].
      * rewrite /release_lock. cbn [w_locks set_locks]. destruct w as [? ? ? ? ? ? ? ls ?]. rewrite /set_locks. simpl in *. f_equal.
        apply list_eq. intros k. destruct (decide (i = k)) as [<-|Hne].
        -- rewrite list_lookup_alter list_lookup_insert; last by eapply lookup_lt_Some. rewrite Hl /=. destruct l; simpl in *. by rewrite Hr0 Hw0 Hp.
        -- by rewrite list_lookup_alter_ne // list_lookup_insert_ne.
      * exists l, (RwLock 0 true false). done.
Qed.
Lemma acquire_read_run w gs i : accounts (w_locks w) gs → i < length (w_locks w) →
  match acquire_read i w with
  | Done g w' ev => g = GRead i ∧ ev = [] ∧ accounts (w_locks w') (GRead i :: gs) ∧ release_lock false g w' = w ∧
      ∃ l l', w_locks w !! i = Some l ∧ rw_poisoned l = rw_poisoned l' ∧ w' = set_locks (<[i := l']> (w_locks w)) w
  | Panicked r w' ev => r = RPoisoned ∧ ev = [] ∧ w' = w ∧ ∃ l, w_locks w !! i = Some l ∧ rw_poisoned l = true
  | Deadlock => ∃ j, gs !! j = Some (GWrite i)
  | UB => False
  end.
Proof.
  intros Hacc Hi. apply lookup_lt_is_Some in Hi as [l Hl]. rewrite /acquire_read (in_lock_run _ _ _ _ Hl).
  pose proof Hacc as [_ H2]. destruct (H2 _ _ Hl) as (Hr & Hc & Hx). destruct (rw_writer l) eqn:Hw0.
  - destruct (decide (GWrite i ∈ gs)) as [[j Hj]%elem_of_list_lookup|Hn2]; [eauto|]. apply count_0 in Hn2. lia.
  - destruct (rw_poisoned l) eqn:Hp.
    + rewrite list_insert_id // set_locks_id. eauto 10.
    + split_and!; [done..| | |].
      * eapply accounts_insert; [done..|]. rewrite /account !count_cons /=. rewrite decide_True //. split_and!; [lia|lia|done].
      * rewrite /release_lock. cbn [w_locks set_locks]. destruct w as [? ? ? ? ? ? ? ls ?]. rewrite /set_locks. simpl in *. f_equal.
        apply list_eq. intros k. destruct (decide (i = k)) as [<-|Hne].
        -- rewrite list_lookup_alter list_lookup_insert; last by eapply lookup_lt_Some. rewrite Hl /=. destruct l; simpl in *. by rewrite Hw0 Hp Nat.add_sub.
        -- by rewrite list_lookup_alter_ne // list_lookup_insert_ne.
      * exists l, (RwLock (rw_readers l + 1) false false). done.
Qed.

(** *** Releasing *)
Lemma release_locks u g w : ∃ ls, release_lock u g w = set_locks ls w ∧ length ls = length (w_locks w).
Proof.
  destruct g as [|i|i]; simpl.
  - exists (w_locks w). by rewrite set_locks_id.
  - eexists. split; [done|]. by rewrite alter_length.
  - eexists. split; [done|]. by rewrite alter_length.
Qed.
Lemma release_all_locks u gs w : ∃ ls, release_all u gs w = set_locks ls w ∧ length ls = length (w_locks w).
Proof.
  rewrite /release_all. revert w. induction gs as [|g gs IH]; intros w; simpl.
  - exists (w_locks w). by rewrite set_locks_id.
  - destruct (release_locks u g w) as (ls & -> & Hl). destruct (IH (set_locks ls w)) as (ls' & -> & Hl').
    exists ls'. split; [done|]. rewrite Hl'. done.
Qed.
Lemma release_accounts u g gs w : accounts (w_locks w) (g :: gs) → accounts (w_locks (release_lock u g w)) gs.
Proof.
  intros [H1 H2]. apply Forall_cons in H1 as [Hg H1].
  destruct g as [|i|i]; simpl.
  - split; [done|]. intros i l Hl. destruct (H2 _ _ Hl) as (A & B & C). rewrite !count_cons in A, B. done.
  - split; [by rewrite alter_length|]. intros k l Hl. destruct (decide (i = k)) as [<-|Hne].
    + rewrite list_lookup_alter in Hl. destruct (w_locks w !! i) as [l0|] eqn:Hl0; [|done]. injection Hl as <-.
      destruct (H2 _ _ Hl0) as (A & B & C). rewrite !count_cons decide_True // in A. rewrite !count_cons in B. simpl in B.
      rewrite /account /=. split_and!; [lia|done|]. intros ?%C. lia.
    + rewrite list_lookup_alter_ne // in Hl. destruct (H2 _ _ Hl) as (A & B & C). rewrite !count_cons in A, B.
      rewrite decide_False in A; last congruence. done.
  - split; [by rewrite alter_length|]. intros k l Hl. destruct (decide (i = k)) as [<-|Hne].
    + rewrite list_lookup_alter in Hl. destruct (w_locks w !! i) as [l0|] eqn:Hl0; [|done]. injection Hl as <-.
      destruct (H2 _ _ Hl0) as (A & B & C). rewrite !count_cons decide_True // in B. rewrite !count_cons in A. simpl in A.
      rewrite /account /=. split_and!; [lia| |done]. destruct (rw_writer l0); lia.
    + rewrite list_lookup_alter_ne // in Hl. destruct (H2 _ _ Hl) as (A & B & C). rewrite !count_cons in A, B.
      rewrite decide_False in B; last congruence. done.
Qed.
Lemma release_all_accounts u gs gs' w : accounts (w_locks w) (gs ++ gs') → accounts (w_locks (release_all u gs w)) gs'.
Proof.
  rewrite /release_all. revert w. induction gs as [|g gs IH]; intros w; simpl; [done|].
  intros H. apply IH. by apply release_accounts.
Qed.
Lemma release_comm u g g' w : release_lock u g (release_lock u g' w) = release_lock u g' (release_lock u g w).
Proof.
  destruct g as [|i|i], g' as [|j|j]; cbn [release_lock]; try done;
    rewrite /set_locks; cbn [w_locks w_archs w_bitset w_entbits w_ents w_meta w_types w_lock_lookup w_reuse]; f_equal;
    (destruct (decide (i = j)) as [<-|Hne]; [|by apply list_alter_commute]);
    rewrite -!list_alter_compose; by apply list_alter_ext.
Qed.
Lemma release_all_comm u gs g w : release_all u gs (release_lock u g w) = release_lock u g (release_all u gs w).
Proof.
  rewrite /release_all. revert w. induction gs as [|g' gs IH]; intros w; simpl; [done|]. by rewrite -IH release_comm.
Qed.
Lemma release_all_app u gs g w : release_all u (gs ++ [g]) w = release_all u gs (release_lock u g w).
Proof. rewrite release_all_comm /release_all foldl_app. done. Qed.

(** *** Whole queries *)
(** The outcome of requesting the guards for [fs] after having obtained [gs] starting from
    [w0], while [G] are out elsewhere. *)
Definition poisoned (w : world) (i : nat) : Prop := ∃ l, w_locks w !! i = Some l ∧ rw_poisoned l = true.
Lemma unlocked_guard w f : unlocked w f → guard_of w f = GNone.
Proof. intros (c & Hf & Hc). destruct f; simplify_eq/=; by rewrite Hc. Qed.

Section acquire.
  Context (w0 : world) (Hl0 : ∀ c i, w_lock_lookup w0 !! c = Some i → i < length (w_locks w0)) (G : list lguard).

  (** Reached from [w0] by acquiring [gs]. *)
  Definition acquired (gs : list lguard) (w : world) : Prop :=
    accounts (w_locks w) (gs ++ G) ∧ release_all false gs w = w0 ∧
    (∀ i, poisoned w i ↔ poisoned w0 i) ∧
    ∃ ls, w = set_locks ls w0 ∧ length ls = length (w_locks w0).

  Lemma acquired_nil : accounts (w_locks w0) G → acquired [] w0.
  Proof using Type. intros H. split_and!; [done..|]. exists (w_locks w0). by rewrite set_locks_id. Qed.

  Lemma releasing_run {A} gs (m : M world A) w :
    releasing gs m w = match m w with Panicked r w' ev => Panicked r (release_all true gs w') ev | o => o end.
  Proof using Type. done. Qed.

  Lemma acquire_one f c i gs w : acquired gs w → fetch_id f = Some c → w_lock_lookup w !! c = Some i →
    match (match f with FMut _ => acquire_write i | _ => acquire_read i end) w with
    | Done g w' ev => g = guard_of w0 f ∧ ev = [] ∧ acquired (gs ++ [g]) w'
    | Panicked r w' ev => r = RPoisoned ∧ ev = [] ∧ w' = w ∧ poisoned w0 i
    | Deadlock => ∃ j g, (gs ++ G) !! j = Some g ∧
        match f with FMut _ => lock_of g = Some i | _ => g = GWrite i end
    | UB => False
    end.
  Proof using Hl0.
    intros (Hacc & Hrel & Hpo & ls & -> & Hlen) Hf Hc. cbn [w_lock_lookup set_locks] in Hc.
    assert (i < length (w_locks (set_locks ls w0))) as Hi. { cbn [w_locks set_locks]. rewrite Hlen. by eapply Hl0. }
    assert (∀ l l', w_locks (set_locks ls w0) !! i = Some l → rw_poisoned l = rw_poisoned l' →
      ∀ k, poisoned (set_locks (<[i := l']> (w_locks (set_locks ls w0))) (set_locks ls w0)) k ↔ poisoned w0 k) as Hpok.
    { intros l l' Hl E k. rewrite -Hpo. rewrite /poisoned. cbn [w_locks set_locks] in *. destruct (decide (i = k)) as [<-|Hne].
      - rewrite list_lookup_insert //. rewrite Hl. naive_solver congruence.
      - by rewrite list_lookup_insert_ne. }
    destruct f as [|c'|c']; [done| |]; injection Hf as ->.
    - pose proof (acquire_write_run _ _ i Hacc Hi) as H. destruct (acquire_write i (set_locks ls w0)) as [g w' ev|r w' ev| |].
      + destruct H as (-> & -> & Ha & Hr & l & l' & Hl & Hp & ->). split; [by rewrite /= Hc|]. split; [done|]. split_and!.
        * eapply accounts_perm; [|exact Ha]. rewrite -app_assoc. by rewrite /= -Permutation_middle.
        * by rewrite release_all_app Hr.
        * by eapply Hpok.
        * eexists. split; [done|]. by rewrite insert_length.
      + destruct H as (-> & -> & -> & Hp). split_and!; [done..|]. by apply Hpo.
      + done.
      + done.
    - pose proof (acquire_read_run _ _ i Hacc Hi) as H. destruct (acquire_read i (set_locks ls w0)) as [g w' ev|r w' ev| |].
      + destruct H as (-> & -> & Ha & Hr & l & l' & Hl & Hp & ->). split; [by rewrite /= Hc|]. split; [done|]. split_and!.
        * eapply accounts_perm; [|exact Ha]. rewrite -app_assoc. by rewrite /= -Permutation_middle.
        * by rewrite release_all_app Hr.
        * by eapply Hpok.
        * eexists. split; [done|]. by rewrite insert_length.
      + destruct H as (-> & -> & -> & Hp). split_and!; [done..|]. by apply Hpo.
      + destruct H as (j & Hj). eauto.
      + done.
  Qed.
  Lemma acquired_none gs w : acquired gs w → acquired (gs ++ [GNone]) w.
  Proof using Type.
    intros (Hacc & Hrel & Hpo & Hls). split_and!; [|by rewrite release_all_app|done..].
    eapply (accounts_perm _ (GNone :: gs ++ G)); [by rewrite -app_assoc /= Permutation_middle|].
    destruct Hacc as [H1 H2]. split; [by constructor|]. intros i l Hl. destruct (H2 _ _ Hl) as (A & B & C).
    by rewrite /account !count_cons.
  Qed.
  (** A request that cannot be granted is for a lock already taken. *)
  Lemma blocked_clash f c i gs fs : w_lock_lookup w0 !! c = Some i → fetch_id f = Some c →
    (∃ j g, (gs ++ G) !! j = Some g ∧ match f with FMut _ => lock_of g = Some i | _ => g = GWrite i end) →
    ¬ compat (G ++ gs ++ (guard_of w0 <$> f :: fs)).
  Proof using Type.
    clear Hl0.     intros Hc Hf (j & g & Hj & Hg) Hcompat.
    assert (∃ j', (G ++ gs) !! j' = Some g) as (j' & Hj').
    { apply elem_of_list_lookup. apply elem_of_list_lookup_2 in Hj. set_solver. }
    assert (j' < length (G ++ gs)) as Hlt by by eapply lookup_lt_Some.
    rewrite fmap_cons app_assoc in Hcompat.
    assert (((G ++ gs) ++ guard_of w0 f :: (guard_of w0 <$> fs)) !! length (G ++ gs) = Some (guard_of w0 f)) as H1 by by apply list_lookup_middle.
    assert (((G ++ gs) ++ guard_of w0 f :: (guard_of w0 <$> fs)) !! j' = Some g) as H2 by by apply lookup_app_l_Some.
    destruct f as [|c'|c']; [done| |]; injection Hf as ->; cbn [guard_of] in *; rewrite Hc in H1 H2 Hcompat.
    - destruct (Hcompat (length (G ++ gs)) j' _ _ ltac:(lia) H1 H2) as [A B]. destruct g; simplify_eq/=.
    - subst g. by destruct (Hcompat j' (length (G ++ gs)) _ _ ltac:(lia) H2 H1) as [A B].
  Qed.

  Definition panicked_guards (fs : list fetch) (r : reason) : Prop :=
    (r = RPoisoned ∧ ∃ f c i, f ∈ fs ∧ fetch_id f = Some c ∧ w_lock_lookup w0 !! c = Some i ∧ poisoned w0 i).

  Lemma released_after gs w : acquired gs w → accounts (w_locks (release_all true gs w)) G ∧
    ∃ ls, release_all true gs w = set_locks ls w0 ∧ length ls = length (w_locks w0).
  Proof using Type.
    intros (Hacc & _ & _ & ls & -> & Hlen). split; [by apply release_all_accounts|].
    destruct (release_all_locks true gs (set_locks ls w0)) as (ls' & -> & Hl'). exists ls'. split; [done|]. by rewrite Hl'.
  Qed.

  Lemma dq_lock_run fs gs inc w : acquired gs w →
    match dq_lock fs gs inc w with
    | Done (gs', inc') w' ev => ev = [] ∧ gs' = gs ++ (guard_of w0 <$> fs) ∧ acquired gs' w' ∧
        (inc' = true ↔ inc = true ∨ Exists (unlocked w0) fs)
    | Panicked r w' ev => ev = [] ∧ panicked_guards fs r ∧ accounts (w_locks w') G ∧
        ∃ ls, w' = set_locks ls w0 ∧ length ls = length (w_locks w0)
    | Deadlock => ¬ compat (G ++ gs ++ (guard_of w0 <$> fs))
    | UB => False
    end.
  Proof using Hl0.
    revert gs inc w. induction fs as [|f fs IH]; intros gs inc w Hacq; cbn [dq_lock].
    { simpl. rewrite app_nil_r. split_and!; [done..|]. rewrite Exists_nil. tauto. }
    destruct (fetch_id f) as [c|] eqn:Hf; last first.
    { specialize (IH (gs ++ [GNone]) inc w (acquired_none _ _ Hacq)). rewrite -(assoc_L (++) gs [GNone]) in IH.
      assert (guard_of w0 f = GNone) as Hg by by destruct f.
      rewrite fmap_cons Hg.
      destruct (dq_lock fs (gs ++ [GNone]) inc w) as [[gs' inc'] w' ev|r w' ev| |]; [| |exact IH|done].
      - destruct IH as (-> & -> & Ha & Hi). split_and!; [done..|].
        rewrite Hi Exists_cons. rewrite /unlocked Hf. naive_solver.
      - destruct IH as (-> & (-> & f' & c & i & ? & ?) & Ha & Hi). split_and!; [done| |done..].
        split; [done|]. exists f', c, i. split; [by constructor|done]. }
    pose proof Hacq as (_ & _ & _ & ls & Hwls & _).
    assert (w_lock_lookup w = w_lock_lookup w0) as Hlk by by rewrite Hwls.
    rewrite (bind_done_nil _ _ w (w_lock_lookup w !! c) w eq_refl). rewrite Hlk. destruct (w_lock_lookup w0 !! c) as [i|] eqn:Hc; last first.
    { specialize (IH (gs ++ [GNone]) true w (acquired_none _ _ Hacq)). rewrite -(assoc_L (++) gs [GNone]) in IH.
      assert (unlocked w0 f) as Hun by by exists c.
      rewrite fmap_cons (unlocked_guard _ _ Hun).
      destruct (dq_lock fs (gs ++ [GNone]) true w) as [[gs' inc'] w' ev|r w' ev| |]; [| |exact IH|done].
      - destruct IH as (-> & -> & Ha & Hi). split_and!; [done..|].
        rewrite Hi Exists_cons. tauto.
      - destruct IH as (-> & (-> & f' & c' & i & ? & ?) & Ha & Hi). split_and!; [done| |done..].
        split; [done|]. exists f', c', i. split; [by constructor|done]. }
    rewrite {1}/bind releasing_run.
    pose proof (acquire_one f c i gs w Hacq Hf ltac:(by rewrite Hlk)) as H.
    destruct ((match f with FMut _ => acquire_write i | _ => acquire_read i end) w) as [g w1 ev|r w1 ev| |]; [| | |done].
    - destruct H as (-> & -> & Hacq1). specialize (IH (gs ++ [guard_of w0 f]) inc w1 Hacq1). rewrite -(assoc_L (++) gs [guard_of w0 f]) in IH.
      rewrite fmap_cons.
      destruct (dq_lock fs (gs ++ [guard_of w0 f]) inc w1) as [[gs' inc'] w' ev|r w' ev| |]; [| |exact IH|done].
      + destruct IH as (-> & -> & Ha & Hi). split_and!; [done..|].
        rewrite Hi Exists_cons. rewrite /unlocked Hf. naive_solver.
      + destruct IH as (-> & (-> & f' & c' & i' & ? & ?) & Ha & Hi). split_and!; [done| |done..].
        split; [done|]. exists f', c', i'. split; [by constructor|done].
    - destruct H as (-> & -> & -> & Hp). destruct (released_after _ _ Hacq) as [Ha Hls].
      split_and!; [done| |done..]. split; [done|]. exists f, c, i. split_and!; [by constructor|done..].
    - by eapply blocked_clash.
  Qed.
  Lemma sq_lock_run fs gs w : acquired gs w →
    match sq_lock fs gs w with
    | Done gs' w' ev => ev = [] ∧ gs' = gs ++ (guard_of w0 <$> fs) ∧ acquired gs' w' ∧ ¬ Exists (unlocked w0) fs
    | Panicked r w' ev => ev = [] ∧ (panicked_guards fs r ∨ r = RIndex ∧ Exists (unlocked w0) fs) ∧ accounts (w_locks w') G ∧
        ∃ ls, w' = set_locks ls w0 ∧ length ls = length (w_locks w0)
    | Deadlock => ¬ compat (G ++ gs ++ (guard_of w0 <$> fs))
    | UB => False
    end.
  Proof using Hl0.
    revert gs w. induction fs as [|f fs IH]; intros gs w Hacq; cbn [sq_lock].
    { simpl. rewrite app_nil_r. split_and!; [done..|]. by intros ?%Exists_nil. }
    rewrite {1}/bind releasing_run.
    destruct (fetch_id f) as [c|] eqn:Hf; last first.
    { cbn [ret]. specialize (IH (gs ++ [GNone]) w (acquired_none _ _ Hacq)). rewrite -(assoc_L (++) gs [GNone]) in IH.
      assert (guard_of w0 f = GNone) as Hg by by destruct f.
      rewrite fmap_cons Hg.
      destruct (sq_lock fs (gs ++ [GNone]) w) as [gs' w' ev|r w' ev| |]; [| |exact IH|done].
      - destruct IH as (-> & -> & Ha & Hi). split_and!; [done..|].
        rewrite Exists_cons. rewrite /unlocked Hf. naive_solver.
      - destruct IH as (-> & Hx & Ha & Hi). split_and!; [done| |done..].
        destruct Hx as [(-> & f' & c & i & ? & ?)|[-> Hx]]; [left; split; [done|]; exists f', c, i; split; [by constructor|done]|].
        right. split; [done|by right]. }
    pose proof Hacq as (_ & _ & _ & ls & Hwls & _).
    assert (w_lock_lookup w = w_lock_lookup w0) as Hlk by by rewrite Hwls.
    rewrite (bind_done_nil _ _ w (w_lock_lookup w !! c) w eq_refl). rewrite Hlk. destruct (w_lock_lookup w0 !! c) as [i|] eqn:Hc; last first.
    { simpl. destruct (released_after _ _ Hacq) as [Ha Hls]. split_and!; [done| |done..]. right. split; [done|]. left. by exists c. }
    rewrite (bind_done_nil _ _ w i w eq_refl).
    pose proof (acquire_one f c i gs w Hacq Hf ltac:(by rewrite Hlk)) as H.
    destruct ((match f with FMut _ => acquire_write i | _ => acquire_read i end) w) as [g w1 ev|r w1 ev| |]; [| | |done].
    - destruct H as (-> & -> & Hacq1). specialize (IH (gs ++ [guard_of w0 f]) w1 Hacq1). rewrite -(assoc_L (++) gs [guard_of w0 f]) in IH.
      rewrite fmap_cons.
      destruct (sq_lock fs (gs ++ [guard_of w0 f]) w1) as [gs' w' ev|r w' ev| |]; [| |exact IH|done].
      + destruct IH as (-> & -> & Ha & Hi). split_and!; [done..|].
        rewrite Exists_cons. rewrite /unlocked Hf. naive_solver.
      + destruct IH as (-> & Hx & Ha & Hi). split_and!; [done| |done..].
        destruct Hx as [(-> & f' & c' & i' & ? & ?)|[-> Hx]]; [left; split; [done|]; exists f', c', i'; split; [by constructor|done]|].
        right. split; [done|by right].
    - destruct H as (-> & -> & -> & Hp). destruct (released_after _ _ Hacq) as [Ha Hls].
      split_and!; [done| |done..]. left. split; [done|]. exists f, c, i. split_and!; [by constructor|done..].
    - by eapply blocked_clash.
  Qed.
End acquire.
