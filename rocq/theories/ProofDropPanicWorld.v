(** * Destructors that panic in [despawn] and [remove_component] *)
From Verif Require Import ProofBase SpecSmall World Query History ProofEntities ProofBitset ProofArrayVec ProofUVec.
From Verif Require Export ProofDropPanic.

(** *** The versions with panicking destructors follow the others up to the first panic *)
Section tracks.
  Context (bomb : dropfn → value → bool).
  Definition before {S A} (o : outcome S A) (ev1 : list event) : Prop :=
    match o with Done _ _ ev | Panicked _ _ ev => cut_off bomb ev ev1 | _ => True end.
  Definition spared {S A} (o : outcome S A) : Prop :=
    match o with Done _ _ ev | Panicked _ _ ev => harmless bomb ev | _ => True end.
  (** [G]: the state at the panic and the final state of the run without panics. *)
  Definition tracks_at {S A} (G : S → S → Prop) (s : S) (mb m : M S A) : Prop :=
    (mb s = m s ∧ spared (m s)) ∨
      ∃ s1 ev1, mb s = Panicked RDestructor s1 ev1 ∧ before (m s) ev1 ∧ ∀ a s2 ev, m s = Done a s2 ev → G s1 s2.
  Definition tracks {S A} (G : S → S → Prop) (mb m : M S A) : Prop := ∀ s, tracks_at G s mb m.
  Lemma tracks_at_mute {S A} G s (m : M S A) : mute m → tracks_at G s m m.
  Proof. intros H. left. split; [done|]. specialize (H s). rewrite /spared. destruct (m s) as [? ? ?|? ? ?| |]; [subst; apply harmless_nil|destruct H as [-> _]; apply harmless_nil|done..]. Qed.
  Lemma tracks_at_pre {S A B} G s (m : M S A) (kb k : A → M S B) : mute m →
    (∀ a s', m s = Done a s' [] → tracks_at G s' (kb a) (k a)) → tracks_at G s (bind m kb) (bind m k).
  Proof.
    intros Hm Hk. specialize (Hm s). rewrite /tracks_at /bind. destruct (m s) as [a s1 ev|r s1 ev| |].
    - subst ev. rewrite !add_events_nil. by apply Hk.
    - destruct Hm as [-> _]. left. split; [done|apply harmless_nil].
    - by left.
    - by left.
  Qed.
  Lemma tracks_mute {S A} G (m : M S A) : mute m → tracks G m m.
  Proof. intros H s. by apply tracks_at_mute. Qed.
  Lemma tracks_pre {S A B} G (m : M S A) (kb k : A → M S B) : mute m → (∀ a, tracks G (kb a) (k a)) → tracks G (bind m kb) (bind m k).
  Proof.
    intros Hm Hk s. apply tracks_at_pre; [done|]. intros; apply Hk.
  Qed.
  Lemma tracks_bind {S A B} (mb m : M S A) (kb k : A → M S B) : tracks (λ _ _, True) mb m → (∀ a, tracks (λ _ _, True) (kb a) (k a)) →
    tracks (λ _ _, True) (bind mb kb) (bind m k).
  Proof.
    intros Hm Hk s. rewrite /tracks_at /bind. destruct (Hm s) as [[-> Hs]|(s1 & ev1 & -> & Hb & _)].
    - destruct (m s) as [a s1 ev|r s1 ev| |]; [|by left..]. cbn in Hs. destruct (Hk a s1) as [[-> Hs']|(s2 & ev2 & -> & Hb & _)].
      + left. split; [done|]. destruct (k a s1); cbn in *; [by apply harmless_app..|done|done].
      + right. exists s2, (ev ++ ev2). split_and!; [done| |done]. destruct (k a s1); cbn in *; [by apply cut_off_app_r..|done|done].
    - right. exists s1, ev1. split_and!; [done| |done]. destruct (m s) as [a s2 ev|r s2 ev| |]; cbn in *; [|done..].
      destruct (k a s2); cbn; [by apply cut_off_app_l..|done|done].
  Qed.
  Lemma tracks_last {S A B} (mb m : M S A) (k : A → M S B) : tracks eq mb m → (∀ a, mute (k a)) →
    tracks (λ s1 s2, ∃ a b, k a s1 = Done b s2 []) (bind mb k) (bind m k).
  Proof.
    intros Hm Hk s. rewrite /tracks_at /bind. destruct (Hm s) as [[-> Hs]|(s1 & ev1 & -> & Hb & HG)].
    - left. split; [done|]. destruct (m s) as [a s1 ev|r s1 ev| |]; [|done..]. cbn in Hs. specialize (Hk a s1).
      destruct (k a s1); cbn in *; [subst|destruct Hk as [-> _]|done|done]; by rewrite app_nil_r.
    - right. exists s1, ev1. split_and!; [done| |].
      + destruct (m s) as [a s2 ev|r s2 ev| |]; cbn in *; [|done..]. destruct (k a s2); cbn; [by apply cut_off_app_l..|done|done].
      + intros b s3 ev E. destruct (m s) as [a s2 ev2|r s2 ev2| |]; [|done..]. rewrite (HG a s2 ev2 eq_refl).
        specialize (Hk a s2). destruct (k a s2) as [b' s4 ev4|? ? ?| |] eqn:Ek; [|done..]. cbn in *. subst ev4. simplify_eq. eauto.
  Qed.
  Lemma tracks_zoom {S T A} (get : S → option T) set (mb m : M T A) : tracks eq mb m → tracks eq (zoom get set mb) (zoom get set m).
  Proof.
    intros H s. rewrite /tracks_at /zoom. destruct (get s) as [t|]; [|left; split; [done|apply harmless_nil]].
    destruct (H t) as [[-> Hs]|(t1 & ev1 & -> & Hb & HG)].
    - left. split; [done|]. by destruct (m t).
    - right. eexists _, ev1. split_and!; [done|by destruct (m t)|]. intros a s2 ev E. destruct (m t); [|done..].
      simplify_eq. by rewrite (HG a s0 ev eq_refl).
  Qed.
  Lemma tracks_weaken {S A} (G : S → S → Prop) (mb m : M S A) : tracks G mb m → tracks (λ _ _, True) mb m.
  Proof. intros H s. destruct (H s) as [?|(s1 & ev1 & ? & ? & _)]; [by left|right]. by exists s1, ev1. Qed.
  Lemma uv_swap_remove_events i v b v' ev : uv_swap_remove i v = Done b v' ev → ∃ f x, ev = ldrop f x.
  Proof using Type.
    rewrite /uv_swap_remove (bind_done_nil _ _ v v v eq_refl). case_bool_decide; [|done]. rewrite (bind_done_nil _ _ v () v eq_refl).
    destruct (bool_decide _ || _); [|done]. rewrite (bind_done_nil _ _ v () v eq_refl). case_decide.
    - case_bool_decide; [|done]. rewrite (bind_done_nil _ _ v () v eq_refl). intros (b' & v1 & e1 & e2 & Hp & [= _ <- <-] & ->)%bind_done_inv.
      rewrite app_nil_r. by eapply uv_pop_events.
    - destruct (mem_swap _ _ _ _) as [p|]; [|done]. rewrite (bind_done_nil _ _ v p v eq_refl).
      rewrite (bind_done_nil _ _ v () (uv_set_data p (uv_cap v) v) eq_refl). intros (b' & v1 & e1 & e2 & Hp & [= _ <- <-] & ->)%bind_done_inv.
      rewrite app_nil_r. by eapply uv_pop_events.
  Qed.
  Lemma uv_swap_remove_panic i v r v' ev : uv_swap_remove i v = Panicked r v' ev → ev = [].
  Proof using Type.
    rewrite /uv_swap_remove (bind_done_nil _ _ v v v eq_refl). case_bool_decide; [|by intros [= _ _ <-]]. rewrite (bind_done_nil _ _ v () v eq_refl).
    assert (∀ v r v' ev, (do* uv_pop in ret ()) v = Panicked r v' ev → ev = []) as Hpop.
    { intros v0 r0 v0' ev0 [H0|(? & ? & ? & ? & _ & ? & _)]%bind_panic_inv; [|done]. rewrite /uv_pop (bind_done_nil _ _ v0 v0 v0 eq_refl) in H0.
      case_decide; [by rewrite /bind in H0|]. case_decide; [|done]. rewrite /bind /modify /= in H0. by destruct (mem_read _ _ _). }
    destruct (bool_decide _ || _); [|by intros [= _ _ <-]]. rewrite (bind_done_nil _ _ v () v eq_refl). case_decide.
    - case_bool_decide; [|by intros [= _ _ <-]]. rewrite (bind_done_nil _ _ v () v eq_refl). apply Hpop.
    - destruct (mem_swap _ _ _ _) as [p|]; [|done]. rewrite (bind_done_nil _ _ v p v eq_refl).
      rewrite (bind_done_nil _ _ v () (uv_set_data p (uv_cap v) v) eq_refl). apply Hpop.
  Qed.
  Lemma tracks_uv_swap_remove i : tracks eq (uv_swap_remove_b bomb i) (uv_swap_remove i).
  Proof.
    intros v. rewrite /tracks_at vec_swap_remove_explode. destruct (uv_swap_remove i v) as [[] v' ev|r v' ev| |] eqn:E; cbn [explode].
    - destruct (uv_swap_remove_events _ _ _ _ _ E) as (f & x & ->). case_decide as H; [by left|]. right. exists v', (ldrop f x).
      split_and!; [done|by apply cut_off_ldrop|]. by intros [] ? ? [= -> _].
    - left. split; [done|]. rewrite (uv_swap_remove_panic _ _ _ _ _ E). apply harmless_nil.
    - by left.
    - by left.
  Qed.
  Lemma tracks_storage k i row : tracks eq (in_arch k (in_storage i (uv_swap_remove_b bomb row))) (in_arch k (in_storage i (uv_swap_remove row))).
  Proof. by apply tracks_zoom, tracks_zoom, tracks_uv_swap_remove. Qed.
  Lemma tracks_swap_remove_storages k row is_ : tracks (λ _ _, True) (swap_remove_storages_b bomb k row is_) (swap_remove_storages k row is_).
  Proof.
    induction is_ as [|i is_ IH]; cbn [swap_remove_storages_b swap_remove_storages]; [apply tracks_mute, mute_ret|].
    apply tracks_bind; [|done]. eapply tracks_weaken, tracks_storage.
  Qed.
  Lemma tracks_despawn e : tracks (λ _ _, True) (despawn_b bomb e) (despawn e).
  Proof.
    rewrite /despawn_b /despawn. apply tracks_pre; [mute|intros al]. destruct (negb al); [apply tracks_mute; mute|].
    apply tracks_pre; [mute|intros u]. apply tracks_pre; [mute|intros []]. apply tracks_pre; [mute|intros om]. apply tracks_pre; [mute|intros m].
    apply tracks_bind; [|intros _; apply tracks_mute; mute]. rewrite /arch_despawn_b /arch_despawn.
    apply tracks_pre; [mute|intros a]. apply tracks_pre; [mute|intros e']. apply tracks_pre; [mute|intros []]. apply tracks_pre; [mute|intros es].
    apply tracks_pre; [mute|intros []]. apply tracks_bind; [apply tracks_swap_remove_storages|]. intros _. apply tracks_mute. mute.
  Qed.
End tracks.

(** *** What a consistent world owes *)
Lemma bind_comm {A B C} (l : list A) (k : list B) (f : A → B → list C) : (l ≫= λ x, k ≫= λ y, f x y) ≡ₚ (k ≫= λ y, l ≫= λ x, f x y).
Proof.
  induction l as [|x l IH]; [by induction k|]. rewrite bind_cons IH. clear IH. induction k as [|y k IHk]; [done|].
  rewrite !bind_cons -IHk. rewrite -!app_assoc. f_equiv. rewrite !app_assoc. f_equiv. apply Permutation_app_comm.
Qed.
Lemma bind_perm_ext {A B} (l : list A) (f g : A → list B) : (∀ x, x ∈ l → f x ≡ₚ g x) → l ≫= f ≡ₚ l ≫= g.
Proof. intros H. induction l as [|x l IH]; [done|]. rewrite !bind_cons. rewrite H; [|by left]. rewrite IH; [done|]. intros; apply H; by right. Qed.
Lemma bind_bind {A B C} (l : list A) (f : A → list B) (g : B → list C) : (l ≫= f) ≫= g = l ≫= λ x, f x ≫= g.
Proof. induction l as [|x l IH]; [done|]. by rewrite !bind_cons bind_app IH. Qed.
Lemma fmap_bind_list {A B C} (l : list A) (f : A → B) (g : B → list C) : (f <$> l) ≫= g = l ≫= λ x, g (f x).
Proof. induction l as [|x l IH]; [done|]. by rewrite fmap_cons !bind_cons IH. Qed.
Section owed.
  Context (w : world) (R : list (list row)) (Hw : winv w R).
  Local Set Default Proof Using "Hw".
  Lemma winv_col k a c u : w_archs w !! k = Some a → (c, u) ∈ a_storages a →
    ∃ l, uv_rep u l ∧ length l = length (a_entities a) ∧ dtor w c = ti_drop (uv_ti u).
  Proof.
    intros Ha Hc. destruct (lookup_lt_is_Some_2 R k) as [rs Hrs]. { rewrite (wi_len _ _ Hw). by eapply lookup_lt_Some. }
    pose proof (wi_rows _ _ Hw _ _ _ Ha Hrs) as Hr. destruct (ar_cols _ _ _ Hr _ _ Hc) as (cm & Hcm & Hti & Hrep).
    exists (col c rs). split_and!; [done|by rewrite (ar_ents _ _ _ Hr) /col !fmap_length|].
    assert (lives w c) as Hl.
    { apply lives_alive. eapply (wi_comps _ _ Hw k (a_comp_ids a)); [by rewrite /arch_ids list_lookup_fmap Ha|].
      rewrite -(as_storages _ (wi_shape _ _ Hw _ _ Ha)). apply elem_of_list_fmap. by exists (c, u). }
    rewrite (dtor_comp _ _ Hw _ cm) // Hti. by destruct cm.
  Qed.
  Lemma winv_cols_wf : cols_wf w.
  Proof.
    apply Forall_forall. intros u (a & Hu & [k Ha]%elem_of_list_lookup_1)%elem_of_list_bind.
    apply elem_of_list_fmap in Hu as ([c u'] & -> & Hc). destruct (winv_col _ _ _ _ Ha Hc) as (l & Hrep & _). by eapply uv_rep_wf.
  Qed.
  Lemma owed_held : owed w ≡ₚ dropping_all w (cells w).
  Proof.
    rewrite /owed /all_cols /dropping_all /cells /held bind_bind fmap_bind_list bind_bind. apply bind_perm_ext. intros a [k Ha]%elem_of_list_lookup_1.
    rewrite fmap_bind_list. rewrite /arch_cells.
    trans (seq 0 (length (a_entities a)) ≫= λ i, a_storages a ≫= λ s,
      match mem_read (uv_data s.2) (i * uv_size s.2) (uv_size s.2) with Some v => dropping w s.1 v | None => [] end).
    - rewrite bind_comm. apply bind_perm_ext. intros [c u] Hc. cbn [fst snd]. destruct (winv_col _ _ _ _ Ha Hc) as (l & Hrep & Hlen & Hdt).
      rewrite (owed_vec_rep _ _ Hrep) /owed_list -Hlen. apply reflexive_eq.
      assert (∀ i x, l !! i = Some x → mem_read (uv_data u) (i * uv_size u) (uv_size u) = Some x) as Hread.
      { intros i x Hi. destruct (decide (uv_size u = 0)) as [Hs|Hs]; [|by eapply mem_read_chunk].
        pose proof (uv_rep_size _ _ _ _ Hrep Hi) as Hx. rewrite Hs in Hx. apply nil_length_inv in Hx as ->.
        apply uv_rep_zst in Hrep as (_ & -> & _); [|done]. by rewrite Hs Nat.mul_0_r. }
      assert (∀ l' n, (∀ i x, l' !! i = Some x → mem_read (uv_data u) ((n + i) * uv_size u) (uv_size u) = Some x) →
        l' ≫= ldrop (ti_drop (uv_ti u)) = seq n (length l') ≫= λ i, match mem_read (uv_data u) (i * uv_size u) (uv_size u) with Some v => dropping w c v | None => [] end) as Hgen.
      { intros l'. induction l' as [|x l' IH]; intros n H; [done|]. cbn [length seq]. rewrite !bind_cons. f_equal.
        - pose proof (H 0 x eq_refl) as H0. rewrite Nat.add_0_r in H0. rewrite H0 /dropping Hdt. done.
        - apply IH. intros i y Hi. replace (S n + i) with (n + S i) by lia. by apply (H (S i)). }
      apply Hgen. intros i x Hi. by apply Hread.
    - apply reflexive_eq. assert (∀ es n, seq n (length es) ≫= (λ i, a_storages a ≫= λ s,
        match mem_read (uv_data s.2) (i * uv_size s.2) (uv_size s.2) with Some v => dropping w s.1 v | None => [] end)
        = mjoin (imap (λ i, row_cells a (n + i)) es) ≫= λ x, dropping w x.1.2 x.2) as Hgen.
      { intros es. induction es as [|e es IH]; intros n; [done|]. cbn [length seq imap]. rewrite bind_cons.
        change (mjoin (?x :: ?l)) with (x ++ mjoin l). rewrite bind_app. f_equal.
        - rewrite Nat.add_0_r /row_cells bind_bind. clear. induction (a_storages a) as [|s l IH]; [done|]. rewrite !bind_cons IH. f_equal.
          destruct (mem_read _ _ _); [|done]. rewrite bind_singleton. done.
        - rewrite IH. f_equal. f_equal. apply imap_ext. intros i x _. cbn. f_equal. lia. }
      rewrite (Hgen _ 0). f_equal.
  Qed.
End owed.
