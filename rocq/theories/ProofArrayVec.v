(** * ArrayVec, the add/remove cache and index_twice_mut (C22-C24, C50) *)
From Verif Require Import ProofBase SpecSmall World.

(** The first [av_len] slots hold exactly [l]. *)
Definition av_rep {T} (v : array_vec T) (l : list T) : Prop :=
  av_len v = length l ∧ ∃ rest, av_array v = (Some <$> l) ++ rest.

Lemma av_rep_new {T} n : av_rep (T := T) (av_new n) [].
Proof. split; [done|]. by exists (replicate n None). Qed.
Lemma mapM_id_Some {T} (l : list T) : mapM id (Some <$> l) = Some l.
Proof. induction l as [|x l IH]; simpl; [done|]. by rewrite IH. Qed.
Lemma av_as_slice_rep {T} (v : array_vec T) l : av_rep v l → av_as_slice v = AvOk l.
Proof.
  intros (Hlen & rest & Ha). rewrite /av_as_slice Ha app_length fmap_length Hlen.
  rewrite decide_True; [|lia]. rewrite take_app_alt; [|by rewrite fmap_length]. by rewrite mapM_id_Some.
Qed.
Lemma av_get_rep {T} (v : array_vec T) l i : av_rep v l → av_get v i = AvOk (l !! i).
Proof.
  intros (Hlen & rest & Ha). rewrite /av_get Hlen. case_decide as Hi.
  - rewrite Ha lookup_app_l; [|by rewrite fmap_length]. rewrite list_lookup_fmap.
    destruct (lookup_lt_is_Some_2 l i Hi) as [x Hx]. by rewrite Hx.
  - by rewrite lookup_ge_None_2; [|lia].
Qed.
Lemma shift_up_some {T} (slots : list T) n : n + 1 ≤ length slots →
  ∃ z, shift_up slots n = Some (z :: take n slots ++ drop (n + 1) slots).
Proof. intros Hn. destruct slots as [|z zs]; [simpl in Hn; lia|]. exists z. rewrite /shift_up decide_True //. Qed.
Lemma av_push_start_rep {T} (v : array_vec T) l x : av_rep v l → 0 < length (av_array v) →
  ∃ v', av_push_start v x =
          AvOk (if decide (length l = length (av_array v)) then last l else None, v') ∧
        length (av_array v') = length (av_array v) ∧
        av_rep v' (take (length (av_array v)) (x :: l)).
Proof.
  intros (Hlen & rest & Ha) Hpos. rewrite /av_push_start Hlen.
  assert (length (av_array v) = length l + length rest) as HL by by rewrite Ha app_length fmap_length.
  case_decide as Hfull.
  - assert (rest = []) as -> by (apply nil_length_inv; lia). rewrite app_nil_r in Ha.
    assert (l ≠ []) as Hne by (intros ->; simpl in *; lia).
    destruct (exists_last Hne) as (l0 & y & ->).
    rewrite Ha take_ge; [|by rewrite fmap_length]. rewrite fmap_app !last_snoc.
    rewrite app_length /=. replace (length l0 + 1 - 1) with (length l0) by lia.
    destruct (shift_up_some ((Some <$> l0) ++ [Some y]) (length l0)) as [z ->].
    { rewrite app_length fmap_length /=. lia. }
    eexists. split; [done|]. simpl. rewrite take_app_alt; [|by rewrite fmap_length].
    rewrite drop_ge; [|rewrite app_length fmap_length /=; lia]. rewrite app_nil_r app_length fmap_length /=.
    split; [lia|]. replace (length l0 + 1) with (S (length l0)) by lia. simpl. rewrite take_app.
    split; [simpl; lia|]. exists []. simpl. by rewrite app_nil_r.
  - assert (length l < length (av_array v)) as Hlt by lia.
    destruct (shift_up_some (av_array v) (length l)) as [z ->]; [lia|].
    eexists. split; [done|]. simpl. rewrite Ha. rewrite take_app_alt; [|by rewrite fmap_length].
    rewrite drop_app_ge; [|rewrite fmap_length; lia]. rewrite !app_length !fmap_length.
    split; [rewrite drop_length; lia|].
    rewrite take_ge; [|simpl; lia].
    split; [simpl; lia|]. by eexists.
Qed.

Lemma take_cons_take {T} n (x : T) l : take n (x :: take n l) = take n (x :: l).
Proof. destruct n; [done|]. simpl. f_equal. rewrite take_take. f_equal. lia. Qed.

(** ** C23 *)
Lemma av_pushes_rep {T} (xs : list T) v done :
  av_rep v (take (length (av_array v)) (reverse done)) → 0 < length (av_array v) →
  ∃ ds v', av_pushes xs v = AvOk (ds, v') ∧
    length (av_array v') = length (av_array v) ∧
    av_rep v' (take (length (av_array v)) (reverse (done ++ xs))) ∧
    length ds = length xs ∧
    ∀ k, k < length xs → ds !! k = Some (if decide (length done + k < length (av_array v)) then None
                                         else (done ++ xs) !! (length done + k - length (av_array v))).
Proof.
  revert v done. induction xs as [|x xs IH]; intros v don Hrep Hpos; simpl.
  { exists [], v. rewrite app_nil_r. split_and!; [done..|]. intros; lia. }
  destruct (av_push_start_rep _ _ x Hrep Hpos) as (v1 & -> & HL & Hrep1).
  rewrite take_cons_take in Hrep1. rewrite -HL in Hrep1.
  rewrite -(reverse_snoc don x) in Hrep1.
  destruct (IH v1 (don ++ [x]) Hrep1) as (ds & v2 & -> & HL2 & Hrep2 & Hds & Hk); [lia|].
  eexists _, _. split; [done|]. rewrite -app_assoc /= in Hrep2, Hk.
  split_and!; [lia|by rewrite -HL|simpl; lia|].
  intros [|k] Hlt; simpl.
  - f_equal. rewrite take_length reverse_length Nat.add_0_r.
    case_decide as Hc; case_decide as Hd; [lia| |done|lia].
    rewrite last_lookup take_length reverse_length. rewrite lookup_take; [|lia].
    rewrite lookup_app_l; [|lia]. rewrite reverse_lookup; [|lia]. f_equal. lia.
  - rewrite Hk; [|lia]. rewrite app_length /= HL. replace (length don + 1 + k) with (length don + S k) by lia. done.
Qed.
Lemma av_window {T} n (xs : list T) : 0 < n →
  ∃ ds v, av_pushes xs (av_new n) = AvOk (ds, v) ∧
    length (av_array v) = n ∧ av_as_slice v = AvOk (take n (reverse xs)) ∧
    length ds = length xs ∧
    ∀ k, k < length xs → ds !! k = Some (if decide (k < n) then None else xs !! (k - n)).
Proof.
  intros Hn. destruct (av_pushes_rep xs (av_new n) []) as (ds & v & Hr & HL & Hrep & Hl & Hk).
  { rewrite take_nil. apply av_rep_new. } { by rewrite /= replicate_length. }
  simpl in *. rewrite replicate_length in HL, Hrep, Hk.
  exists ds, v. split_and!; [done|done|by apply av_as_slice_rep|done|done].
Qed.

Lemma av_step_rep {T} (o : avop T) v l : av_rep v l → 0 < length (av_array v) →
  ∃ v', av_step o v = AvOk ((window_step (length (av_array v)) o l).1, v') ∧
    length (av_array v') = length (av_array v) ∧ av_rep v' (window_step (length (av_array v)) o l).2.
Proof.
  intros Hrep Hpos. assert (length l ≤ length (av_array v)) as Hle.
  { destruct Hrep as (_ & rest & ->). rewrite app_length fmap_length. lia. }
  destruct o as [x|x|i x]; cbn [av_step window_step].
  - destruct Hrep as (Hlen & rest & Ha). rewrite /av_push Hlen. case_decide as H; [|exists v; split_and!; [done..|split; [done|by exists rest]]].
    eexists. split; [done|]. cbn [av_array av_len fst snd]. split; [by rewrite insert_length|].
    split; [rewrite app_length /=; cbn [av_len]; lia|]. destruct rest as [|z rest].
    { exfalso. rewrite Ha app_length fmap_length /= in H. lia. }
    exists rest. rewrite Ha fmap_app /= -app_assoc /=. rewrite -(fmap_length Some l).
    replace (length (Some <$> l)) with (length (Some <$> l) + 0) by lia. by rewrite insert_app_r.
  - destruct (av_push_start_rep v l x Hrep Hpos) as (v' & -> & HL & Hv). exists v'. split; [|done]. do 2 f_equal.
    cbn [fst]. destruct (length (av_array v)) as [|n]; [lia|]. cbn [lookup list_lookup]. case_decide as E.
    + rewrite last_lookup E. done.
    + symmetry. apply lookup_ge_None_2. lia.
  - destruct Hrep as (Hlen & rest & Ha). rewrite /av_get_mut_set Hlen. case_decide as Hi.
    + destruct (lookup_lt_is_Some_2 l i Hi) as [y Hy].
      assert (av_array v !! i = Some (Some y)) as ->.
      { rewrite Ha lookup_app_l; [|by rewrite fmap_length]. by rewrite list_lookup_fmap Hy. }
      eexists. rewrite Hy. split; [done|]. cbn [av_array av_len fst snd]. split; [by rewrite insert_length|].
      split; [by rewrite insert_length|]. exists rest. rewrite Ha insert_app_l; [|by rewrite fmap_length].
      by rewrite list_fmap_insert.
    + exists v. cbn [fst snd]. rewrite lookup_ge_None_2; [|lia]. rewrite list_insert_ge; [|lia].
      split_and!; [done..|split; [done|by exists rest]].
Qed.
Lemma av_run_rep {T} (h : list (avop T)) v l : av_rep v l → 0 < length (av_array v) →
  ∃ v', av_run h v = AvOk ((window_run (length (av_array v)) h l).1, v') ∧
    length (av_array v') = length (av_array v) ∧ av_rep v' (window_run (length (av_array v)) h l).2.
Proof.
  revert v l. induction h as [|o h IH]; intros v l Hrep Hpos; cbn [av_run window_run]; [by exists v|].
  destruct (av_step_rep o v l Hrep Hpos) as (v1 & -> & HL & Hv).
  destruct (window_step (length (av_array v)) o l) as [d l1] eqn:E. cbn [fst snd] in *.
  destruct (IH v1 l1 Hv) as (v2 & -> & HL2 & Hv2); [lia|]. rewrite HL in HL2 Hv2 |- *.
  destruct (window_run (length (av_array v)) h l1) as [ds l2]. by exists v2.
Qed.
Lemma av_history {T} n (h : list (avop T)) : 0 < n →
  ∃ v, av_run h (av_new n) = AvOk ((window_run n h []).1, v) ∧ length (av_array v) = n ∧
    av_as_slice v = AvOk (window_run n h []).2 ∧ av_drop v = AvOk (window_run n h []).2 ∧
    ∀ i, av_get v i = AvOk ((window_run n h []).2 !! i).
Proof.
  intros Hn. destruct (av_run_rep h (av_new n) [] (av_rep_new n)) as (v & Hr & HL & Hv).
  { by rewrite /= replicate_length. }
  rewrite /= replicate_length in Hr HL Hv. exists v. split_and!; [done|done|by apply av_as_slice_rep..|].
  intros i. by apply av_get_rep.
Qed.

(** ** C24 *)
Lemma av_push_all_rep {T} (xs : list T) v l : av_rep v l → length l + length xs ≤ length (av_array v) →
  av_rep (av_push_all xs v) (l ++ xs) ∧
  length (av_array (av_push_all xs v)) = length (av_array v) ∧
  ∀ i, length (l ++ xs) ≤ i → av_array (av_push_all xs v) !! i = av_array v !! i.
Proof.
  revert v l. induction xs as [|x xs IH]; intros v l Hrep Hle; simpl.
  { by rewrite app_nil_r. }
  destruct Hrep as (Hlen & rest & Ha). simpl in Hle.
  assert (length (av_array v) = length l + length rest) as HL by by rewrite Ha app_length fmap_length.
  rewrite /av_push Hlen. rewrite decide_True; [|lia]. simpl.
  destruct rest as [|z rest]; [simpl in HL; lia|].
  assert (<[length l:=Some x]> (av_array v) = (Some <$> (l ++ [x])) ++ rest) as Hins.
  { rewrite Ha fmap_app -app_assoc /=. rewrite -(fmap_length Some l).
    rewrite -(Nat.add_0_r (length _)) insert_app_r //. }
  destruct (IH (ArrayVec (<[length l:=Some x]> (av_array v)) (length l + 1)) (l ++ [x])) as (H1 & H2 & H3).
  { split; [simpl; by rewrite app_length|]. by exists rest. }
  { simpl. rewrite insert_length app_length /=. lia. }
  rewrite -app_assoc /= in H1, H3. simpl in H2, H3. rewrite insert_length in H2.
  split_and!; [done|done|]. intros i Hi. rewrite /av_push_all in H3. rewrite H3 //.
  rewrite list_lookup_insert_ne //. rewrite app_length /= in Hi. lia.
Qed.
Lemma av_pop_wrong {T} n (xs : list T) : xs ≠ [] → length xs ≤ n →
  av_as_slice (av_push_all xs (av_new n)) = AvOk xs ∧
  av_pop (av_push_all xs (av_new n)) = if decide (length xs = n) then AvPanic RIndex else AvUB.
Proof.
  intros Hne Hle. destruct (av_push_all_rep xs (av_new n) [] (av_rep_new n)) as (H1 & H2 & H3).
  { simpl. by rewrite replicate_length. }
  split; [by apply av_as_slice_rep|]. simpl in H1, H2, H3. rewrite replicate_length in H2.
  destruct H1 as (Hlen & _). rewrite /av_pop Hlen. rewrite decide_True; [|destruct xs; simpl; [done|lia]].
  rewrite H3 //. case_decide.
  - rewrite lookup_ge_None_2 //. rewrite replicate_length. lia.
  - rewrite lookup_replicate_2 //. lia.
Qed.
Lemma av_pop_once_wrong :
  ∃ (n : nat) (x : N), n = CACHE_SIZE ∧
    av_as_slice (av_push_all [x] (av_new n)) = AvOk [x] ∧
    ¬ ∃ v', av_pop (av_push_all [x] (av_new n)) = AvOk (Some x, v').
Proof. exists CACHE_SIZE, 7%N. split_and!; [reflexivity|reflexivity|]. intros [v' [=]]. Qed.

(** ** C22: the cache is a map *)
Definition rc_inv (s : arcache) : Prop :=
  length (av_array (rc_cache s)) = CACHE_SIZE ∧
  ∃ l, av_rep (rc_cache s) l ∧ ∀ c k, rc_scan l c = Some k → rc_lookup s !! c = Some k.
Lemma rc_scan_take l n c k : rc_scan (take n l) c = Some k → rc_scan l c = Some k.
Proof.
  revert n. induction l as [|[i j] l IH]; intros [|n]; simpl; try done. case_decide; [done|]. apply IH.
Qed.
Lemma rc_inv_new : rc_inv rc_new.
Proof. split; [done|]. exists []. split; [apply av_rep_new|done]. Qed.
Lemma rc_lookup_id_spec c s : rc_inv s →
  ∃ s', rc_lookup_id c s = Done (rc_lookup s !! c) s' [] ∧ rc_lookup s' = rc_lookup s ∧ rc_inv s'.
Proof.
  intros (HL & l & Hrep & Hsc). rewrite /rc_lookup_id (av_as_slice_rep _ _ Hrep).
  destruct (rc_scan l c) as [k|] eqn:Hscan.
  { exists s. split; [by rewrite (Hsc _ _ Hscan)|]. split; [done|]. split; [done|]. by exists l. }
  destruct (rc_lookup s !! c) as [k|] eqn:Hk.
  2:{ exists s. split_and!; [done|done|]. split; [done|]. by exists l. }
  destruct (av_push_start_rep _ _ (c, k) Hrep) as (v' & -> & HL' & Hrep'); [rewrite HL; apply Nat.lt_0_succ|].
  eexists. split; [done|]. split; [done|]. split; [by rewrite /= HL'|]. eexists. split; [done|].
  simpl. intros c' k' H. apply rc_scan_take in H. simpl in H. case_decide; [by simplify_eq|]. by apply Hsc.
Qed.
Lemma rc_insert_id_spec c k s : rc_inv s →
  ∃ s', rc_insert_id c k s = Done () s' [] ∧ rc_lookup s' = <[c := k]> (rc_lookup s) ∧ rc_inv s'.
Proof.
  intros (HL & l & Hrep & Hsc). rewrite /rc_insert_id.
  destruct (av_push_start_rep _ _ (c, k) Hrep) as (v' & -> & HL' & Hrep'); [rewrite HL; apply Nat.lt_0_succ|].
  eexists. split; [done|]. split; [done|]. split; [by rewrite /= HL'|]. eexists. split; [done|].
  simpl. intros c' k' H. apply rc_scan_take in H. simpl in H. case_decide; simplify_eq.
  - by rewrite lookup_insert.
  - rewrite lookup_insert_ne //. by apply Hsc.
Qed.
Lemma rc_run_map_inv h s : rc_inv s → ∃ s', rc_run h s = Done (map_run h (rc_lookup s)) s' [] ∧ rc_inv s'.
Proof.
  revert s. induction h as [|o h IH]; intros s Hinv; simpl; [by exists s|].
  destruct o as [c|c k]; cbn [rc_step].
  - destruct (rc_lookup_id_spec c s Hinv) as (s1 & H1 & Heq & Hinv1).
    destruct (IH s1 Hinv1) as (s2 & H2 & Hinv2). exists s2.
    rewrite (bind_done_nil _ _ _ _ _ H1) (bind_done_nil _ _ _ _ _ H2) Heq. done.
  - destruct (rc_insert_id_spec c k s Hinv) as (s1 & H1 & Heq & Hinv1).
    destruct (IH s1 Hinv1) as (s2 & H2 & Hinv2). exists s2.
    rewrite (bind_done_nil _ _ s (Some k) s1).
    + rewrite (bind_done_nil _ _ _ _ _ H2) Heq. done.
    + by rewrite (bind_done_nil _ _ _ _ _ H1).
Qed.
Lemma rc_run_map h : ∃ s, rc_run h rc_new = Done (map_run h ∅) s [].
Proof. destruct (rc_run_map_inv h _ rc_inv_new) as (s & H & _). eauto. Qed.

(** ** C50 *)
Lemma index_twice_spec {A} i j (l : list A) x y :
  index_twice i j l = Some (x, y) ↔ i ≠ j ∧ l !! i = Some x ∧ l !! j = Some y.
Proof.
  rewrite /index_twice. destruct (Nat.compare_spec i j) as [->|Hlt|Hgt].
  - naive_solver.
  - rewrite lookup_take // head_lookup lookup_drop Nat.add_0_r. case_decide as Hd.
    + destruct (l !! i), (l !! j); naive_solver lia.
    + rewrite (lookup_ge_None_2 l j); [|lia]. naive_solver.
  - rewrite lookup_take // head_lookup lookup_drop Nat.add_0_r. case_decide as Hd.
    + destruct (l !! i), (l !! j); naive_solver lia.
    + rewrite (lookup_ge_None_2 l i); [|lia]. naive_solver.
Qed.
