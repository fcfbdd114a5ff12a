(** * Conservation of component values (C30). *)
From Verif Require Import ProofBase SpecSmall World History ProofEntities ProofBitset ProofArrayVec ProofUVec.
From Verif Require Export SpecLedger ProofHistory.

Lemma NoDup_mjoin {A} (ls : list (list A)) :
  (∀ i x, ls !! i = Some x → NoDup x) →
  (∀ i j x y a, ls !! i = Some x → ls !! j = Some y → a ∈ x → a ∈ y → i = j) →
  NoDup (mjoin ls).
Proof.
  induction ls as [|x ls IH]; intros H1 H2; [apply NoDup_nil_2|].
  change (mjoin (x :: ls)) with (x ++ mjoin ls). apply NoDup_app. split_and!.
  - by apply (H1 0).
  - intros a Ha (y & Hay & [j Hj]%elem_of_list_lookup_1)%elem_of_list_join.
    by pose proof (H2 0 (S j) x y a eq_refl Hj Ha Hay).
  - apply IH.
    + intros i y Hi. by apply (H1 (S i)).
    + intros i j y z a Hi Hj Hy Hz. pose proof (H2 (S i) (S j) y z a Hi Hj Hy Hz). lia.
Qed.
Lemma bind_mjoin {A B} (f : A → list B) l : l ≫= f = mjoin (f <$> l).
Proof. induction l as [|x l IH]; [done|]. cbn. by f_equal. Qed.

Section cells.
  Context (w : world) (R : list (list row)) (Hw : winv w R).
  Local Set Default Proof Using "Hw".
  Lemma arch_columns_nodup k a : w_archs w !! k = Some a → NoDup (a_storages a).*1.
  Proof.
    intros Ha. pose proof (wi_shape _ _ Hw _ _ Ha) as Hsh. rewrite (as_storages _ Hsh). apply sorted_NoDup, Hsh.
  Qed.
  Lemma row_cells_nodup k a i e : w_archs w !! k = Some a → NoDup (row_cells a i e).
  Proof.
    intros Ha. rewrite /row_cells bind_mjoin. apply NoDup_mjoin.
    - intros j x Hj. apply list_lookup_fmap_inv in Hj as (s & -> & Hs). destruct (mem_read _ _ _); [apply NoDup_singleton|apply NoDup_nil_2].
    - intros j j' x y b Hj Hj' Hx Hy. apply list_lookup_fmap_inv in Hj as (s & -> & Hs). apply list_lookup_fmap_inv in Hj' as (s' & -> & Hs').
      destruct (mem_read _ _ _); [|by apply elem_of_nil in Hx]. apply elem_of_list_singleton in Hx as ->.
      destruct (mem_read _ _ _); [|by apply elem_of_nil in Hy]. apply elem_of_list_singleton in Hy. simplify_eq.
      eapply (NoDup_lookup _ _ _ s.1 (arch_columns_nodup k a Ha)); rewrite list_lookup_fmap ?Hs ?Hs' //=. congruence.
  Qed.
  Lemma placed_once e k i k' i' : placed w e k i → placed w e k' i' → k = k' ∧ i = i'.
  Proof.
    intros (rs & m & H1 & H2)%(placed_row _ _ _ _ _ Hw) (rs' & m' & H3 & H4)%(placed_row _ _ _ _ _ Hw).
    by destruct (winv_row_unique _ _ Hw _ _ _ _ _ _ _ _ _ H1 H2 H3 H4) as (? & ? & _).
  Qed.
  Lemma arch_cells_elem a e c v : (e, c, v) ∈ arch_cells a ↔ ∃ i, a_entities a !! i = Some e ∧ (e, c, v) ∈ row_cells a i e.
  Proof using Type.
    rewrite /arch_cells. split.
    - intros (l & Hx & [i Hi]%elem_of_list_lookup_1)%elem_of_list_join. rewrite list_lookup_imap in Hi. apply fmap_Some in Hi as (e1 & He & ->).
      pose proof Hx as (-> & _)%row_cells_elem. eauto.
    - intros (i & He & Hx). apply elem_of_list_join. exists (row_cells a i e). split; [done|].
      eapply (elem_of_list_lookup_2 _ i). by rewrite list_lookup_imap He.
  Qed.
  Lemma held_nodup : NoDup (held w).
  Proof.
    rewrite /held bind_mjoin. apply NoDup_mjoin.
    - intros k x Hk. apply list_lookup_fmap_inv in Hk as (a & -> & Ha). rewrite /arch_cells. apply NoDup_mjoin.
      + intros i x Hi. rewrite list_lookup_imap in Hi. apply fmap_Some in Hi as (e & He & ->). by eapply row_cells_nodup.
      + intros i j x y [[e0 c] v] Hi Hj Hx Hy. rewrite list_lookup_imap in Hi. apply fmap_Some in Hi as (e & He & ->).
        rewrite list_lookup_imap in Hj. apply fmap_Some in Hj as (e' & He' & ->).
        apply row_cells_elem in Hx as (-> & _). apply row_cells_elem in Hy as (-> & _).
        by destruct (placed_once e' k i k j) as [_ ?]; [by exists a..|].
    - intros k k' x y [[e c] v] Hk Hk' Hx Hy.
      apply list_lookup_fmap_inv in Hk as (a & -> & Ha). apply list_lookup_fmap_inv in Hk' as (a' & -> & Ha').
      apply arch_cells_elem in Hx as (i & He & _). apply arch_cells_elem in Hy as (i' & He' & _).
      by destruct (placed_once e k i k' i') as [? _]; [by eexists..|].
  Qed.
  Lemma holds_in_use e c v : holds w e c v → in_use w c.
  Proof using Type. intros (k & i & a & j & u & Ha & _ & Hj & _). by exists k, a, j, u. Qed.
  Lemma in_use_arch c : in_use w c ↔ ∃ k L, arch_ids w !! k = Some L ∧ c ∈ L.
  Proof.
    split.
    - intros (k & a & j & u & Ha & Hj). exists k, (a_comp_ids a). split; [by rewrite /arch_ids list_lookup_fmap Ha|].
      rewrite -(as_storages _ (wi_shape _ _ Hw _ _ Ha)). eapply (elem_of_list_lookup_2 _ j). by rewrite list_lookup_fmap Hj.
    - intros (k & L & HL & Hc). rewrite /arch_ids list_lookup_fmap in HL. apply fmap_Some in HL as (a & Ha & ->).
      rewrite -(as_storages _ (wi_shape _ _ Hw _ _ Ha)) in Hc. apply elem_of_list_lookup_1 in Hc as [j Hj].
      apply list_lookup_fmap_inv in Hj as ([c' u] & -> & Hj). by exists k, a, j, u.
  Qed.
End cells.

Lemma holds_fun w R e c v v' : winv w R → holds w e c v → holds w e c v' → v = v'.
Proof.
  intros Hw (m & Hm & Hv)%(holds_row _ _ Hw) (m' & Hm' & Hv')%(holds_row _ _ Hw).
  pose proof (row_fun _ _ Hw _ _ _ Hm Hm') as <-. congruence.
Qed.

(** *** Comparing what is held *)
Lemma held_add w R w' R' X : winv w R → winv w' R' → NoDup X →
  (∀ e c v, (e, c, v) ∈ X → ¬ holds w e c v) →
  (∀ e c v, holds w' e c v ↔ (e, c, v) ∈ X ∨ holds w e c v) → held w' ≡ₚ X ++ held w.
Proof.
  intros Hw Hw' HX Hdis H. apply NoDup_Permutation; [by eapply held_nodup| |].
  - apply NoDup_app. split_and!; [done| |by eapply held_nodup]. intros [[e c] v] Hx Hh%held_holds. by eapply Hdis.
  - intros [[e c] v]. by rewrite elem_of_app !held_holds H.
Qed.
Lemma held_same w R w' R' : winv w R → winv w' R' → same_holds w w' → held w' ≡ₚ held w.
Proof.
  intros Hw Hw' H. apply (held_add w R w' R' []); [done|done|by apply NoDup_nil_2|..].
  - by intros e c v ?%elem_of_nil.
  - intros e c v. rewrite H elem_of_nil. tauto.
Qed.
Lemma held_sets w R w' R' e c v : winv w R → winv w' R' → sets w w' e c v → ¬ has w e c → held w' ≡ₚ (e, c, v) :: held w.
Proof.
  intros Hw Hw' H Hn. apply (held_add w R w' R' [(e, c, v)]); [done|done|by apply NoDup_singleton|..].
  - intros e0 c0 v0 [= -> -> ->]%elem_of_list_singleton Hh. apply Hn. by exists v.
  - intros e0 c0 v0. rewrite (H e0 c0 v0) elem_of_list_singleton. split.
    + intros [(-> & -> & ->)|[_ ?]]; auto.
    + intros [[= -> -> ->]|Hh]; [auto|]. right. split; [|done]. intros [-> ->]. apply Hn. by exists v0.
Qed.
Lemma held_unsets w R w' R' e c v : winv w R → winv w' R' → unsets w w' e c → holds w e c v → held w ≡ₚ (e, c, v) :: held w'.
Proof.
  intros Hw Hw' H Hv. apply (held_add w' R' w R [(e, c, v)]); [done|done|by apply NoDup_singleton|..].
  - intros e0 c0 v0 [= -> -> ->]%elem_of_list_singleton Hh. by apply H in Hh as [[] _].
  - intros e0 c0 v0. rewrite (H e0 c0 v0) elem_of_list_singleton. split.
    + intros Hh. destruct (decide (e0 = e ∧ c0 = c)) as [[-> ->]|]; [|by right].
      left. pose proof (holds_fun _ _ _ _ _ _ Hw Hv Hh). by subst.
    + by intros [[= -> -> ->]|[_ ?]].
Qed.
Lemma held_write w R w' R' e c v v0 : winv w R → winv w' R' → sets w w' e c v → holds w e c v0 →
  ∃ X, held w ≡ₚ (e, c, v0) :: X ∧ held w' ≡ₚ (e, c, v) :: X.
Proof.
  intros Hw Hw' H Hv. exists (filter (λ x, ¬ (x.1.1 = e ∧ x.1.2 = c)) (held w)).
  pose proof (held_nodup w R Hw) as Hn. pose proof (held_nodup w' R' Hw') as Hn'. split.
  - apply NoDup_Permutation; [done| |].
    + apply NoDup_cons. split; [|by apply NoDup_filter]. rewrite elem_of_list_filter. cbn. naive_solver.
    + intros [[e1 c1] v1]. rewrite elem_of_cons elem_of_list_filter held_holds. cbn. split.
      * intros Hh. destruct (decide (e1 = e ∧ c1 = c)) as [[-> ->]|]; [|by right].
        left. pose proof (holds_fun _ _ _ _ _ _ Hw Hv Hh). by subst.
      * by intros [[= -> -> ->]|[_ ?]].
  - apply NoDup_Permutation; [done| |].
    + apply NoDup_cons. split; [|by apply NoDup_filter]. rewrite elem_of_list_filter. cbn. naive_solver.
    + intros [[e1 c1] v1]. rewrite elem_of_cons elem_of_list_filter !held_holds (H e1 c1 v1). cbn. naive_solver.
Qed.
Definition of_entity (e : ecsid) (l : list (ecsid * value)) : list (ecsid * ecsid * value) := (λ p, (e, p.1, p.2)) <$> l.
Lemma of_entity_elem e l e0 c v : (e0, c, v) ∈ of_entity e l ↔ e0 = e ∧ (c, v) ∈ l.
Proof.
  rewrite /of_entity elem_of_list_fmap. split.
  - intros ([c' v'] & [= -> -> ->] & ?). done.
  - intros [-> H]. by exists (c, v).
Qed.
Lemma of_entity_nodup e (l : list (ecsid * value)) : NoDup l.*1 → NoDup (of_entity e l).
Proof. intros H%NoDup_fmap_1. assert (Inj (=) (=) (λ p : ecsid * value, (e, p.1, p.2))) by (intros [] []; cbn; congruence). by apply NoDup_fmap_2. Qed.
Lemma of_entity_cells e l : (λ x : ecsid * ecsid * value, (x.1.2, x.2)) <$> of_entity e l = l.
Proof. rewrite /of_entity -list_fmap_compose. rewrite -{2}(list_fmap_id l). apply list_fmap_ext. by intros ? [] ?. Qed.
Lemma held_built w R w' R' e D : winv w R → winv w' R' → NoDup D.*1 → ¬ lives w e → built_with w w' e D →
  held w' ≡ₚ of_entity e D ++ held w.
Proof.
  intros Hw Hw' Hn Hl [_ H]. apply (held_add w R w' R'); [done|done|by apply of_entity_nodup|..].
  - intros e0 c v [-> _]%of_entity_elem (k & i & a & j & u & Ha & He & _). apply Hl. eapply (stored_lives _ _ Hw). exists k, i. by exists a.
  - intros e0 c v. by rewrite H of_entity_elem.
Qed.
Lemma held_despawn w R w' R' e l : winv w R → winv w' R' → components w e l →
  (∀ e0 c v, holds w' e0 c v ↔ e0 ≠ e ∧ holds w e0 c v) → held w ≡ₚ of_entity e l ++ held w'.
Proof.
  intros Hw Hw' [Hn Hc] H. apply (held_add w' R' w R); [done|done|by apply of_entity_nodup|..].
  - intros e0 c v [-> _]%of_entity_elem [? _]%H. done.
  - intros e0 c v. rewrite H of_entity_elem. split.
    + intros Hh. destruct (decide (e0 = e)) as [->|]; [|by right]. left. by rewrite Hc.
    + by intros [[-> ?%Hc]|[_ ?]].
Qed.
Lemma cells_perm w w' X : held w' ≡ₚ X ++ held w → cells w' ≡ₚ ((λ x, (x.1.2, x.2)) <$> X) ++ cells w.
Proof. intros H. rewrite /cells -fmap_app. by apply fmap_Permutation. Qed.

(** *** One call *)
Definition balanced (w w' : world) (n : entry) : Prop := cells w' ++ dropt n ++ lost n ≡ₚ cells w ++ took n.
Lemma balanced_same w R w' R' : winv w R → winv w' R' → same_holds w w' → balanced w w' (Entry [] [] []).
Proof.
  intros Hw Hw' H. rewrite /balanced /= !app_nil_r /cells. by apply fmap_Permutation, (held_same w R w' R').
Qed.
Lemma balanced_sets w R w' R' e c v : winv w R → winv w' R' → sets w w' e c v → ¬ has w e c → balanced w w' (Entry [(c, v)] [] []).
Proof.
  intros Hw Hw' H Hn. rewrite /balanced /= !app_nil_r. rewrite (cells_perm w w' [(e, c, v)]).
  - apply (Permutation_app_comm [(c, v)]).
  - by apply (held_sets w R w' R').
Qed.
Lemma balanced_unsets w R w' R' e c v : winv w R → winv w' R' → unsets w w' e c → holds w e c v → balanced w w' (Entry [] [(c, v)] []).
Proof.
  intros Hw Hw' H Hv. rewrite /balanced /= !app_nil_r. rewrite (cells_perm w' w [(e, c, v)]).
  - apply (Permutation_app_comm _ [(c, v)]).
  - by apply (held_unsets w R w' R').
Qed.
Lemma balanced_write w R w' R' e c v v0 : winv w R → winv w' R' → sets w w' e c v → holds w e c v0 → balanced w w' (Entry [(c, v)] [] [(c, v0)]).
Proof.
  intros Hw Hw' H Hv. destruct (held_write w R w' R' _ _ _ _ Hw Hw' H Hv) as (X & H1 & H2). rewrite /balanced /= /cells H1 H2 !fmap_cons /=.
  rewrite !(Permutation_app_comm _ [_]) /=. apply Permutation_swap.
Qed.
Lemma balanced_built w R w' R' e D : winv w R → winv w' R' → NoDup D.*1 → ¬ lives w e → built_with w w' e D → balanced w w' (Entry D [] []).
Proof.
  intros Hw Hw' Hn Hl H. rewrite /balanced /= !app_nil_r. rewrite (cells_perm w w' (of_entity e D)).
  - rewrite of_entity_cells. apply Permutation_app_comm.
  - by apply (held_built w R w' R').
Qed.
Lemma balanced_despawn w R w' R' e l : winv w R → winv w' R' → components w e l →
  (∀ e0 c v, holds w' e0 c v ↔ e0 ≠ e ∧ holds w e0 c v) → balanced w w' (Entry [] l []).
Proof.
  intros Hw Hw' Hc H. rewrite /balanced /= !app_nil_r. rewrite (cells_perm w' w (of_entity e l)).
  - rewrite of_entity_cells. apply Permutation_app_comm.
  - by apply (held_despawn w R w' R').
Qed.

Lemma in_use_stays w R w' R' c : winv w R → winv w' R' → sframe w w' → in_use w c → in_use w' c ∧ dtor w' c = dtor w c.
Proof.
  intros Hw Hw' Hf (k & L & HL & Hc)%(in_use_arch _ _ Hw). pose proof (sf_ids _ _ Hf _ _ HL) as HL'. split; [apply (in_use_arch _ _ Hw'); eauto|].
  destruct (wi_comps _ _ Hw _ _ _ HL Hc) as (Hal & [cm Hcm] & _). destruct (wi_comps _ _ Hw' _ _ _ HL' Hc) as (Hal' & _).
  rewrite (dtor_comp _ _ Hw _ cm); [|by apply lives_alive|done]. apply (dtor_comp _ _ Hw'); [by apply lives_alive|].
  by rewrite (sf_comp _ _ Hf).
Qed.
Lemma dropping_stays w R w' R' l : winv w R → winv w' R' → sframe w w' → Forall (λ p, in_use w p.1) l → dropping_all w' l = dropping_all w l.
Proof.
  intros Hw Hw' Hf. induction 1 as [|[c v] l Hc Hl IH]; [done|]. rewrite /dropping_all !bind_cons -!/(dropping_all _ l) IH. f_equal.
  rewrite /dropping /=. by destruct (in_use_stays w R w' R' c Hw Hw' Hf Hc) as [_ ->].
Qed.
Definition entered0 (w w' : world) (o : sop) (r : res) (ev : list event) (n : entry) : Prop :=
  books w' o r n ∧ ev ≡ₚ dropping_all w' (dropt n) ∧ balanced w w' n ∧
  (r ≠ RPanic RDuplicate → Forall (λ p, in_use w p.1) (dropt n)).
Lemma filter_sized_split (D : list (ecsid * value)) : filter (λ p, p.2 ≠ []) D ++ filter (λ p, p.2 = []) D ≡ₚ D.
Proof.
  induction D as [|[c v] D IH]; [done|]. rewrite !filter_cons /=. destruct v as [|b v].
  - etrans; [symmetry; apply Permutation_middle|]. apply perm_skip, IH.
  - apply (perm_skip _ IH).
Qed.
Lemma bop_not_duplicate w o r : bop_rejected w o r → r ≠ RDuplicate.
Proof. destruct o; cbn; rewrite /data_rejected; naive_solver. Qed.

Lemma books_spawn_panic w cap meta bs fin x n : x ≠ RDuplicate →
  dropt n = [] ∧ lost n = [] ∧ (took n = [] ∨ BBuild ∈ bs ∧ given w (bops_before bs) (took n)) →
  books w (SWorld (OSpawn cap meta bs fin)) (RPanic x) n.
Proof. by destruct x. Qed.
Lemma entered_nothing w R w' R' o r : winv w R → winv w' R' → same_holds w w' → books w' o r (Entry [] [] []) →
  entered0 w w' o r [] (Entry [] [] []).
Proof. intros Hw Hw' H Hb. split_and!; [done|done|by eapply balanced_same|intros _; by apply Forall_nil_2]. Qed.
Lemma same_view_holds w w' : same_view w w' → same_holds w w'.
Proof. by intros (_ & _ & ? & _). Qed.
Lemma same_holds_refl w : same_holds w w.
Proof. done. Qed.

Lemma wgoes_entry0 o w r w' ev : WOk w → WOk w' → wgoes o w r w' ev → (∀ e t v x, o = OAdd e t v → r ≠ inr x) →
  ∃ n, entered0 w w' (SWorld o) (match r with inl a => ROk (SRet a) | inr x => RPanic x end) ev n.
Proof.
  intros Hok Hok' Hg Hna. pose proof (wgoes_frame _ _ _ _ _ Hok Hg) as Hf. destruct Hg as (Hl & Ht & E).
  pose proof Hok as [[R Hw] _]. pose proof Hok' as [[R' Hw'] _].
  pose proof (λ o r, entered_nothing w R w' R' o r Hw Hw') as Hno.
  assert (∀ e c v, holds w e c v → dropping w c v = dropping_all w' [(c, v)]) as Hdrop.
  { intros e c v Hv. rewrite (dropping_stays w R w' R' [(c, v)] Hw Hw' Hf); [|apply Forall_singleton; by eapply holds_in_use].
    rewrite /dropping_all bind_cons /= app_nil_r. done. }
  assert (∀ e c v, holds w e c v → Forall (λ p : ecsid * value, in_use w p.1) [(c, v)]) as Huse.
  { intros e c v Hv. apply Forall_singleton. by eapply holds_in_use. }
  destruct o as [cap meta bs fin|e|e t v|e t|e c|e c v|e c|t|e c v|e t|e].
  - pose proof (spawn_view w cap meta bs fin Hok Hl Ht) as H. destruct r as [a|x].
    + rewrite E in H. destruct H as (-> & e & D & -> & Hs & HD & H). destruct H as [(Hb & Hn & Hbw & _)|(Hb & Hnb)].
      * exists (Entry D [] []). split; [by split_and!|]. split; [done|]. split; [|by intros _; apply Forall_nil_2].
        eapply balanced_built; [done|done|done|exact (proj1 (proj2 Hs))|done].
      * exists (Entry [] [] []). apply Hno; [apply Hnb|]. by split_and!.
    + destruct E as (E & Hx1 & Hx2). rewrite E in H. destruct H as [?|[(? & _)|[(-> & -> & _ & Hh & _)|(e & Hs & H)]]]; [done|done|..].
      { exists (Entry [] [] []). apply Hno; [done|]. apply books_spawn_panic; [done|]. by split_and!; [..|left]. }
      destruct H as [((o & Ho & Hr) & -> & Hnb)|[(-> & Hnb & D & HD & Hnd & Hev)|((o & Ho & Hr) & -> & Hb & D & HD & Hnd & Hbw & _)]].
      * exists (Entry [] [] []). apply Hno; [apply Hnb|]. apply books_spawn_panic; [by eapply bop_not_duplicate|]. by split_and!; [..|left].
      * exists (Entry D (filter (λ p, p.2 ≠ []) D) (filter (λ p, p.2 = []) D)). split; [by split_and!|]. split; [done|]. split; [|done].
        rewrite /balanced /= filter_sized_split. f_equiv. apply fmap_Permutation. eapply held_same; [done|done|apply Hnb].
      * exists (Entry D [] []). split; [apply books_spawn_panic; [by eapply bop_not_duplicate|]; split_and!; [done|done|by right]|].
        split; [done|]. split; [|by intros _; apply Forall_nil_2]. eapply balanced_built; [done|done|done|exact (proj1 (proj2 Hs))|done].
  - pose proof (despawn_view w e Hok Hl Ht) as H. destruct r as [a|x].
    + rewrite E in H. destruct H as [(-> & _ & _ & _ & _ & _ & _ & Hh & _ & l & Hc & ->)|(-> & _ & -> & ->)].
      * assert (Forall (λ p : ecsid * value, in_use w p.1) l) as Hu.
        { apply Forall_forall. intros [c v] Hcv%Hc. by eapply holds_in_use. }
        exists (Entry [] l []). split; [done|]. split; [by rewrite (dropping_stays w R w' R' l Hw Hw' Hf Hu)|].
        split; [by eapply balanced_despawn|done].
      * exists (Entry [] [] []). by apply Hno.
    + destruct E as (E & Hx). rewrite E in H. destruct H as (-> & -> & _). exists (Entry [] [] []). by apply Hno.
  - pose proof (add_typed_view w e t v Hok Hl Ht) as H. destruct r as [a|x].
    + rewrite E in H. destruct H as (-> & -> & _ & _ & _ & c & Hc & [(Hlc & _ & Hn & Hset)|(Hlc & _ & ->)]).
      * exists (Entry [(c, v)] [] []). split; [split_and!; [done..|]; exists c; auto|]. split; [done|]. split; [by eapply balanced_sets|by intros _; apply Forall_nil_2].
      * exists (Entry [] [] []). apply Hno; [done|]. split_and!; [done..|]. exists c. auto.
    + by destruct (Hna e t v x).
  - pose proof (remove_typed_view w e t Hok Hl Ht) as H. destruct r as [a|x].
    + rewrite E in H. destruct H as (-> & _ & _ & _ & c & Hc & _ & [(_ & _ & Hu & v & Hv & ->)|(_ & -> & ->)]).
      * exists (Entry [] [(c, v)] []). split; [split_and!; [done..|]; right; eauto|]. split; [by rewrite (Hdrop _ _ _ Hv)|].
        split; [by eapply balanced_unsets|intros _; by eapply Huse].
      * exists (Entry [] [] []). apply Hno; [done|]. split_and!; [done..|by left].
    + destruct E as (E & Hx1 & Hx2). rewrite E in H. destruct H as [?|(-> & _ & Hh & _)]; [done|]. exists (Entry [] [] []). by apply Hno.
  - pose proof (add_plain_view w e c Hok Hl Ht) as H. destruct r as [a|x].
    + rewrite E in H. destruct H as (-> & -> & _ & _ & _ & _ & Hn & _ & _ & _ & Hset).
      exists (Entry [(c, [])] [] []). split; [done|]. split; [done|]. split; [by eapply balanced_sets|by intros _; apply Forall_nil_2].
    + destruct E as (E & Hx1 & Hx2). rewrite E in H. destruct H as [?|(-> & Hh%same_view_holds & _)]; [done|]. exists (Entry [] [] []). by apply Hno.
  - pose proof (add_dyn_view w e c v Hok Hl Ht) as H. destruct r as [a|x].
    + rewrite E in H. destruct H as (-> & -> & [(-> & Hd)|(He & _ & Hc & _ & Hn & Hls & _ & _ & Hset)]).
      * exists (Entry [] [] []). apply Hno; [done|]. split_and!; [done..|]. auto.
      * destruct Hl as (Hwe & Hwc & _). exists (Entry [(c, v)] [] []). split.
        { split_and!; [done..|]. left. split_and!; [by apply Hls..|done]. }
        split; [done|]. split; [by eapply balanced_sets|by intros _; apply Forall_nil_2].
    + destruct E as (E & Hx1 & Hx2). rewrite E in H. destruct H as [?|(-> & Hh%same_view_holds & _)]; [done|]. exists (Entry [] [] []). by apply Hno.
  - pose proof (remove_dyn_view w e c Hok Hl Ht) as H. destruct r as [a|x].
    + rewrite E in H. destruct H as (-> & [(-> & -> & _)|(_ & _ & _ & _ & _ & _ & Hu & v & Hv & ->)]).
      * exists (Entry [] [] []). apply Hno; [done|]. split_and!; [done..|by left].
      * exists (Entry [] [(c, v)] []). split; [split_and!; [done..|]; right; eauto|]. split; [by rewrite (Hdrop _ _ _ Hv)|].
        split; [by eapply balanced_unsets|intros _; by eapply Huse].
    + destruct E as (E & Hx1 & Hx2). rewrite E in H. destruct H as [?|(-> & -> & _)]; [done|]. exists (Entry [] [] []). by apply Hno.
  - pose proof (register_view w t Hok Hl) as H. destruct r as [a|x].
    + rewrite E in H. destruct H as (-> & _ & Hh & _). exists (Entry [] [] []). by apply Hno.
    + destruct E as (E & Hx1 & Hx2). rewrite E in H. destruct H as [?|(-> & _ & _ & Hh & _)]; [done|]. exists (Entry [] [] []). by apply Hno.
  - pose proof (write_view w e c v Hok Hl) as H. destruct r as [a|x].
    + rewrite E in H. destruct H as (-> & [(-> & -> & _)|(-> & _ & _ & _ & Hset & v0 & Hv0 & _)]).
      * exists (Entry [] [] []). by apply Hno.
      * exists (Entry [(c, v)] [] [(c, v0)]). split; [split_and!; eauto|]. split; [done|]. split; [by eapply balanced_write|by intros _; apply Forall_nil_2].
    + destruct E as (E & Hx1 & Hx2). rewrite E in H. destruct H as (-> & -> & _). exists (Entry [] [] []). by apply Hno.
  - pose proof (has_view w e t Hok) as H. destruct r as [a|x].
    + rewrite E in H. destruct H as (-> & -> & _). exists (Entry [] [] []). by apply Hno.
    + destruct E as (E & Hx1 & Hx2). rewrite E in H. destruct H as (-> & -> & _). exists (Entry [] [] []). by apply Hno.
  - cbn [step] in E. rewrite /bind in E. pose proof (is_alive_cases w e) as H. exists (Entry [] [] []).
    destruct (is_alive e w) as [b w1 ev1|r1 w1 ev1| |]; [| |done..].
    + destruct H as (-> & -> & _). cbn in E. destruct r as [a|x]; [|by destruct E]. simplify_eq. by apply Hno.
    + destruct H as (-> & -> & _). destruct r as [a|x]; [done|]. destruct E as [[= <- <- <-] _]. by apply Hno.
Qed.
Definition entered (w w' : world) (o : sop) (r : res) (ev : list event) (n : entry) : Prop :=
  books w' o r n ∧ refund w' o r (back n) ∧ ev ≡ₚ dropping_all w' (dropt n) ++ back n ∧ balanced w w' n ∧
  (r ≠ RPanic RDuplicate → Forall (λ p, in_use w p.1) (dropt n)).
Lemma entered_plain w w' o r ev n : (∀ e t v x, o = SWorld (OAdd e t v) → r ≠ RPanic x) → entered0 w w' o r ev n → ∃ n', entered w w' o r ev n'.
Proof.
  intros Hna (H1 & H2 & H3 & H4). exists (Entry (took n) (dropt n) (lost n)). destruct n as [a b c x]. split; [exact H1|]. split.
  - destruct o as [o|fs|ps|i u|i|i k j v]; try done. destruct o; try done. destruct r as [|p]; [done|]. by destruct (Hna e t v p).
  - cbn [dropt took lost back] in *. by rewrite app_nil_r.
Qed.
Lemma wgoes_entry o w r w' ev : WOk w → WOk w' → wgoes o w r w' ev →
  ∃ n, entered w w' (SWorld o) (match r with inl a => ROk (SRet a) | inr x => RPanic x end) ev n.
Proof.
  intros Hok Hok' Hg. assert ((∃ e t v x, o = OAdd e t v ∧ r = inr x) ∨ (∀ e t v x, o = OAdd e t v → r ≠ inr x)) as [H|Hna].
  { destruct o; try (by right). destruct r as [a|x]; [by right|]. left. eauto 6. }
  2:{ destruct (wgoes_entry0 o w r w' ev Hok Hok' Hg Hna) as [n Hn]. eapply entered_plain, Hn. intros e t v x [= ->]. destruct r as [a|y]; [done|]. by destruct (Hna e t v y). }
  destruct H as (e & t & v & x & -> & ->). destruct Hg as (Hl & Ht & E & Hx1 & Hx2). pose proof (add_typed_view w e t v Hok Hl Ht) as H. rewrite E in H.
  pose proof Hok as [[R Hw] _]. pose proof Hok' as [[R' Hw'] _].
  destruct H as [?|(Hg & Hh & _ & H)]; [done|]. destruct H as [(-> & Hr & Hsame)|(-> & Hle & c & Hc & Hr)].
  - exists (Booked [] [] [] [EvDrop (DropOf t) v]). split; [done|]. split; [|split; [done|split; [by eapply (balanced_same w R w' R')|intros _; by apply Forall_nil_2]]].
    split; [done|]. intros Hle Hx. exfalso. destruct Hr as [(-> & Hu)|[(-> & Hu)|(-> & _)]]; [| |done].
    + apply unissued_lives in Hu. by rewrite Hsame in Hle.
    + by rewrite Hsame in Hle.
  - exists (Entry [] [] []). split; [done|]. split; [|split; [done|split; [by eapply (balanced_same w R w' R')|intros _; by apply Forall_nil_2]]].
    split; [|done]. intros [Hd| ->]; exfalso; [apply Hd, (proj1 Hg); [by apply Hl|by left]|]. destruct Hr as [(? & _)|[(? & _)|(? & _)]]; done.
Qed.
Lemma goes_query o s r s' ev : sinv s → goes o s r s' ev → (∀ o', o ≠ SWorld o') →
  ev = [] ∧ (only_locks (ss_world s) (ss_world s') ∨ stores o s (ss_world s') ∧ ∃ a, r = ROk a).
Proof.
  intros Hs (Hl & Ht & H) Ho. pose proof (query_view o s Hs Hl Ht Ho) as Hv. destruct r as [a|x].
  - rewrite H in Hv. destruct Hv as (-> & [?|?]); eauto.
  - destruct H as [H [Hr _]]. rewrite H in Hv. destruct Hv as [?|[-> ?]]; [done|]. eauto.
Qed.
Lemma goes_entry o s r s' ev : sinv s → goes o s r s' ev → ∃ n, entered (ss_world s) (ss_world s') o r ev n.
Proof.
  intros Hs Hg. pose proof (goes_inv _ _ _ _ _ Hs Hg) as Hs'. pose proof (sv_world _ Hs) as Hw. pose proof (sv_world _ Hs') as Hw'.
  pose proof Hw as [[R HR] _]. pose proof Hw' as [[R' HR'] _].
  assert ((∃ o', o = SWorld o') ∨ ∀ o', o ≠ SWorld o') as [[o' ->]|Ho] by (destruct o; eauto).
  { destruct (goes_world _ _ _ _ _ Hs Hg) as [(o2 & r' & [= <-] & H & ->)|(-> & [H|H])].
    - by apply wgoes_entry.
    - destruct Hg as (Hl & Ht & E). rewrite sworld_run in E. destruct Hl as [Hl _].
      destruct r as [a|x].
      + destruct (step o' (ss_world s)) as [a0 w' ev'|x0 w' ev'| |] eqn:E'; simplify_eq. by apply (wgoes_entry o' _ (inl a0)).
      + destruct E as [E Hr]. destruct (step o' (ss_world s)) as [a0 w' ev'|x0 w' ev'| |] eqn:E'; simplify_eq. by apply (wgoes_entry o' _ (inr x)).
    - by destruct H as (? & ? & ? & ? & ? & ? & ? & ? & ? & _). }
  destruct (goes_query _ _ _ _ _ Hs Hg Ho) as (-> & [H|(H & a & ->)]).
  - eapply (entered_plain _ _ _ _ _ (Entry [] [] [])); [by intros e t v x ->; destruct (Ho (OAdd e t v))|].
    eapply entered_nothing; [done|done|by apply same_view_holds, only_locks_view|].
    destruct o; try done; [by destruct (Ho o)|]. destruct r; [|done]. cbn. auto.
  - destruct H as (i & n & j & v & q & fs & e & c & -> & _ & _ & _ & _ & _ & _ & _ & Hset & v0 & Hv0 & _).
    apply (entered_plain _ _ _ _ _ (Entry [(c, v)] [] [(c, v0)])); [done|]. split; [|split; [done|split]].
    + split; [done|]. right. eauto.
    + by eapply balanced_write.
    + intros _. by apply Forall_nil_2.
Qed.

(** *** Histories *)
Lemma steps_in_use s l s' c : sinv s → steps s l s' → in_use (ss_world s) c → in_use (ss_world s') c ∧ dtor (ss_world s') c = dtor (ss_world s) c.
Proof.
  intros Hs Hst. revert Hs. revert s l s' Hst. apply (steps_goes (λ s l s', sinv s → in_use (ss_world s) c → in_use (ss_world s') c ∧ dtor (ss_world s') c = dtor (ss_world s) c)); [done|].
  intros s0 l s1 o r s2 ev Hst IH Hg H0 Hc. destruct (IH H0 Hc) as [H1 <-]. pose proof (steps_inv _ _ _ H0 Hst) as Hs1.
  pose proof (goes_inv _ _ _ _ _ Hs1 Hg) as Hs2.
  destruct (sv_world _ Hs1) as [[R1 HR1] _]. destruct (sv_world _ Hs2) as [[R2 HR2] _].
  eapply in_use_stays; [done|done|by eapply goes_frame|done].
Qed.
Lemma steps_ledger s l s' : sinv s → steps s l s' →
  ∃ ns, ledger s l ns ∧
    cells (ss_world s') ++ (ns ≫= dropt) ++ (ns ≫= lost) ≡ₚ cells (ss_world s) ++ (ns ≫= took) ∧
    (no_duplicate l → Forall (λ p, in_use (ss_world s') p.1) (ns ≫= dropt) ∧ events_of l ≡ₚ dropping_all (ss_world s') (ns ≫= dropt) ++ (ns ≫= back)).
Proof.
  intros Hs Hst. revert Hs. revert s l s' Hst.
  apply (steps_goes (λ s l s', sinv s → ∃ ns, ledger s l ns ∧
    cells (ss_world s') ++ (ns ≫= dropt) ++ (ns ≫= lost) ≡ₚ cells (ss_world s) ++ (ns ≫= took) ∧
    (no_duplicate l → Forall (λ p, in_use (ss_world s') p.1) (ns ≫= dropt) ∧ events_of l ≡ₚ dropping_all (ss_world s') (ns ≫= dropt) ++ (ns ≫= back)))).
  { intros s _. exists []. split_and!; [by split|done|]. intros _. split; [by apply Forall_nil_2|done]. }
  intros s0 l s1 o r s2 ev Hst IH Hg H0. destruct (IH H0) as (ns & [Hlen Hbooks] & Hbal & Hev). pose proof (steps_inv _ _ _ H0 Hst) as Hs1.
  pose proof (goes_inv _ _ _ _ _ Hs1 Hg) as Hs2. pose proof (goes_frame _ _ _ _ _ Hs1 Hg) as Hf.
  destruct (sv_world _ Hs1) as [[R1 HR1] _]. destruct (sv_world _ Hs2) as [[R2 HR2] _].
  destruct (goes_entry _ _ _ _ _ Hs1 Hg) as (n & Hb & Hrf & Hevn & Hn & Hu).
  assert (steps s0 (l ++ [(o, r, ev)]) s2) as Hst2.
  { destruct Hg as (Hl & Ht & E). destruct r as [a|x]; [by eapply steps_done|]. destruct E. by eapply steps_panic. }
  exists (ns ++ [n]). split_and!; [split| |].
  - rewrite !app_length Hlen. done.
  - intros i o1 r1 ev1 n1 Hi Hi'. destruct (decide (i < length l)) as [Hlt|Hge].
    + rewrite lookup_app_l // in Hi. rewrite lookup_app_l in Hi'; [|lia]. rewrite take_app_le; [|lia]. by eapply Hbooks.
    + assert (i = length l) as ->. { apply lookup_lt_Some in Hi. rewrite app_length /= in Hi. lia. }
      rewrite lookup_app_r // Nat.sub_diag in Hi. rewrite lookup_app_r in Hi'; [|lia]. rewrite Hlen Nat.sub_diag in Hi'.
      cbn in Hi, Hi'. simplify_eq. exists s2. split; [|done]. rewrite take_ge; [done|]. rewrite app_length /=. lia.
  - rewrite !bind_app !bind_singleton. rewrite /balanced in Hn.
    trans ((cells (ss_world s2) ++ dropt n ++ lost n) ++ (ns ≫= dropt) ++ (ns ≫= lost)).
    { rewrite -!app_assoc. f_equiv. rewrite (Permutation_app_comm (ns ≫= dropt)) -!app_assoc. f_equiv.
      rewrite (Permutation_app_comm (ns ≫= lost)) -!app_assoc. done. }
    rewrite Hn. trans ((cells (ss_world s0) ++ (ns ≫= took)) ++ took n); [|by rewrite -app_assoc]. rewrite -Hbal -!app_assoc. f_equiv. rewrite (Permutation_app_comm (took n)) -!app_assoc. done.
  - intros Hd. apply Forall_app in Hd as [Hd Hdn]. apply Forall_inv in Hdn. cbn in Hdn. destruct (Hev Hd) as [Hu1 Hev1]. specialize (Hu Hdn).
    rewrite !bind_app !bind_singleton. assert (Forall (λ p : ecsid * value, in_use (ss_world s1) p.1) ((ns ≫= dropt) ++ dropt n)) as Hall by by apply Forall_app.
    split.
    + eapply Forall_impl; [exact Hall|]. intros p Hp. exact (proj1 (in_use_stays _ _ _ _ _ HR1 HR2 Hf Hp)).
    + rewrite /events_of bind_app bind_singleton -/(events_of l). cbn [snd]. rewrite (dropping_stays (ss_world s1) R1 _ R2) //.
      rewrite /dropping_all bind_app -!/(dropping_all _ _) Hev1 Hevn. rewrite -!app_assoc. f_equiv.
      rewrite (dropping_stays (ss_world s1) R1 (ss_world s2) R2) //. rewrite !app_assoc. f_equiv. apply Permutation_app_comm.
Qed.

(** *** Dropping the world *)
(** The values dropped by the column vectors, with their entities. *)
Definition col_cells (a : archetype) (rs : list row) (s : ecsid * uvec) : list (ecsid * ecsid * value) :=
  if decide (uv_size s.2 = 0) then [] else (λ r : row, (r.1, s.1, default [] (r.2 !! s.1))) <$> reverse rs.
Definition arch_drops (a : archetype) (rs : list row) : list (ecsid * ecsid * value) := mjoin (col_cells a rs <$> a_storages a).
Definition world_drops (w : world) (R : list (list row)) : list (ecsid * ecsid * value) := mjoin (zip_with arch_drops (w_archs w) R).
Definition dropping3 (w : world) (l : list (ecsid * ecsid * value)) : list event := l ≫= λ x, dropping w x.1.2 x.2.

Section drop.
  Context (w : world) (R : list (list row)) (Hw : winv w R).
  Local Set Default Proof Using "Hw".
  Lemma col_drop k a rs c u : w_archs w !! k = Some a → R !! k = Some rs → (c, u) ∈ a_storages a →
    uv_drop_events u = Some (dropping3 w (col_cells a rs (c, u))).
  Proof.
    intros Ha Hrs Hc. pose proof (wi_rows _ _ Hw _ _ _ Ha Hrs) as Hr. destruct (ar_cols _ _ _ Hr _ _ Hc) as (cm & Hcm & Hti & Hrep).
    rewrite (uv_drop_events_rep _ _ Hrep) /drop_events_of /col_cells. cbn [fst snd]. rewrite /uv_size. case_decide; [done|]. f_equal.
    assert (lives w c) as Hl.
    { apply lives_alive. eapply (wi_comps _ _ Hw k (a_comp_ids a)); [by rewrite /arch_ids list_lookup_fmap Ha|].
      rewrite -(as_storages _ (wi_shape _ _ Hw _ _ Ha)). apply elem_of_list_fmap. by exists (c, u). }
    rewrite /col -fmap_reverse /dropping3. induction (reverse rs) as [|r l IH]; [done|]. rewrite !fmap_cons concat_cons bind_cons IH. f_equal. cbn.
    rewrite /dropping (dtor_comp _ _ Hw _ cm) // Hti. by destruct cm.
  Qed.
  Lemma arch_drop k a rs : w_archs w !! k = Some a → R !! k = Some rs →
    uv_drop_all (a_storages a).*2 = Some (dropping3 w (arch_drops a rs)).
  Proof.
    intros Ha Hrs. rewrite /arch_drops. assert (∀ s, s ∈ a_storages a → uv_drop_events s.2 = Some (dropping3 w (col_cells a rs s))) as H.
    { intros [c u] Hc. by eapply col_drop. }
    induction (a_storages a) as [|s l IH]; [done|]. cbn [fmap list_fmap uv_drop_all]. rewrite H; [|by left]. rewrite IH; [|intros; apply H; by right].
    cbn. by rewrite /dropping3 bind_app.
  Qed.
  Lemma archs_drop : drop_archs (w_archs w) = Some (dropping3 w (world_drops w R)).
  Proof.
    rewrite /world_drops. pose proof (wi_len _ _ Hw) as Hlen.
    assert (∀ k a rs, w_archs w !! k = Some a → R !! k = Some rs → uv_drop_all (a_storages a).*2 = Some (dropping3 w (arch_drops a rs))) as H.
    { intros k a rs. apply arch_drop. }
    revert H Hlen. generalize R. induction (w_archs w) as [|a l IH]; intros R0 H Hlen; [done|]. destruct R0 as [|rs R0]; [done|].
    cbn [drop_archs zip_with]. rewrite (H 0 a rs) //. rewrite (IH R0); [| |by injection Hlen].
    - change (mjoin (?x :: ?l)) with (x ++ mjoin l). by rewrite /dropping3 bind_app.
    - intros k a' rs'. apply (H (S k)).
  Qed.
  Lemma reuse_drop : drop_reuse w = Some ().
  Proof.
    rewrite /drop_reuse. pose proof (wi_reuse _ _ Hw) as H. destruct (w_reuse w) as [[[ids p] cap]|]; [|done].
    destruct H as (_ & Hc & [(? & _)|(_ & -> & m & -> & Hm)]); [done|]. rewrite /heap_dealloc /=. by rewrite decide_True.
  Qed.
  Lemma world_drop_run : world_drop w = Some (dropping3 w (world_drops w R)).
  Proof. by rewrite /world_drop reuse_drop archs_drop. Qed.
  Lemma world_drops_elem e c v : (e, c, v) ∈ world_drops w R ↔ holds w e c v ∧ v ≠ [].
  Proof.
    rewrite /world_drops elem_of_list_join. split.
    - intros (x & Hx & [k Hk]%elem_of_list_lookup_1). apply lookup_zip_with_Some in Hk as (a & rs & -> & Ha & Hrs).
      apply elem_of_list_join in Hx as (y & Hy & (s & -> & Hs)%elem_of_list_fmap). destruct s as [c' u]. rewrite /col_cells in Hy. cbn [fst snd] in Hy.
      case_decide as Hsz; [by apply elem_of_nil in Hy|]. apply elem_of_list_fmap in Hy as ([e' m] & [= -> -> ->] & Hm). rewrite elem_of_reverse in Hm. cbn in *.
      pose proof (wi_rows _ _ Hw _ _ _ Ha Hrs) as Hr. destruct (proj2 (ar_dom _ _ _ Hr (e', m) c' Hm)) as [v Hv].
      { rewrite -(as_storages _ (wi_shape _ _ Hw _ _ Ha)). apply elem_of_list_fmap. by exists (c', u). }
      cbn in Hv. rewrite Hv /=. apply elem_of_list_lookup_1 in Hm as [i Hi]. split.
      + apply (holds_row _ _ Hw). exists m. split; [by exists k, i, rs|done].
      + intros ->. destruct (ar_cols _ _ _ Hr _ _ Hs) as (cm & Hcm & Hti & Hrep).
        apply Hsz. assert (col c' rs !! i = Some []) as Hcol. { by rewrite /col list_lookup_fmap Hi /= Hv. }
        symmetry. exact (uv_rep_size u _ [] i Hrep Hcol).
    - intros [(m & (k & i & rs & Hrs & Hi) & Hv)%(holds_row _ _ Hw) Hne].
      destruct (lookup_lt_is_Some_2 (w_archs w) k) as [a Ha]. { rewrite -(wi_len _ _ Hw). by eapply lookup_lt_Some. }
      pose proof (wi_rows _ _ Hw _ _ _ Ha Hrs) as Hr.
      assert (c ∈ a_comp_ids a) as Hc. { apply (ar_dom _ _ _ Hr (e, m)); [by eapply elem_of_list_lookup_2|]. by exists v. }
      rewrite -(as_storages _ (wi_shape _ _ Hw _ _ Ha)) in Hc. apply elem_of_list_fmap in Hc as ([c' u] & -> & Hs). cbn in *.
      exists (arch_drops a rs). split; [|eapply (elem_of_list_lookup_2 _ k); rewrite lookup_zip_with Ha /= Hrs //].
      apply elem_of_list_join. exists (col_cells a rs (c', u)). split; [|by apply elem_of_list_fmap_1].
      rewrite /col_cells. cbn [fst snd]. destruct (ar_cols _ _ _ Hr _ _ Hs) as (cm & Hcm & Hti & Hrep).
      assert (col c' rs !! i = Some v) as Hcol. { by rewrite /col list_lookup_fmap Hi /= Hv. }
      pose proof (uv_rep_size u _ v i Hrep Hcol) as Hlen. rewrite decide_False; [|destruct v; [done|cbn in Hlen; lia]].
      apply elem_of_list_fmap. exists (e, m). cbn. rewrite Hv. split; [done|]. apply elem_of_reverse. by eapply elem_of_list_lookup_2.
  Qed.
  Lemma world_drops_nodup : NoDup (world_drops w R).
  Proof.
    apply NoDup_mjoin.
    - intros k x (a & rs & -> & Ha & Hrs)%lookup_zip_with_Some. apply NoDup_mjoin.
      + intros j y Hj. apply list_lookup_fmap_inv in Hj as (s & -> & Hs). rewrite /col_cells. case_decide; [apply NoDup_nil_2|].
        apply (NoDup_fmap_1 (λ x : ecsid * ecsid * value, x.1.1)). rewrite -list_fmap_compose. cbn.
        change (NoDup (fst <$> reverse rs)). rewrite (reverse_Permutation rs).
        apply NoDup_alt. intros i i' e Hi Hi'. apply list_lookup_fmap_inv in Hi as ([e1 m] & -> & Hi). apply list_lookup_fmap_inv in Hi' as ([e2 m'] & ? & Hi'). cbn in *. subst.
        by destruct (winv_row_unique _ _ Hw _ _ _ _ _ _ _ _ _ Hrs Hi Hrs Hi') as (_ & ? & _).
      + intros i j x y [[e c] v] Hi Hj Hx Hy. apply list_lookup_fmap_inv in Hi as (s & -> & Hs). apply list_lookup_fmap_inv in Hj as (s' & -> & Hs').
        assert (∀ s0, (e, c, v) ∈ col_cells a rs s0 → c = s0.1) as Hcc.
        { intros s0. rewrite /col_cells. case_decide; [by intros ?%elem_of_nil|]. by intros (? & [= -> -> ->] & _)%elem_of_list_fmap. }
        pose proof (Hcc _ Hx) as E1. pose proof (Hcc _ Hy) as E2.
        eapply (NoDup_lookup _ _ _ c (arch_columns_nodup _ _ Hw k a Ha)); rewrite list_lookup_fmap ?Hs ?Hs' /=; congruence.
    - intros k k' x y [[e c] v] (a & rs & -> & Ha & Hrs)%lookup_zip_with_Some (a' & rs' & -> & Ha' & Hrs')%lookup_zip_with_Some Hx Hy.
      assert (∀ a0 rs0, (e, c, v) ∈ arch_drops a0 rs0 → ∃ i m, rs0 !! i = Some (e, m)) as Hcc.
      { intros a0 rs0 (y & Hy' & (s & -> & Hs)%elem_of_list_fmap)%elem_of_list_join. rewrite /col_cells in Hy'.
        case_decide; [by apply elem_of_nil in Hy'|]. apply elem_of_list_fmap in Hy' as ([e1 m] & [= -> -> ->] & Hin). rewrite elem_of_reverse in Hin. apply elem_of_list_lookup_1 in Hin as [i Hi]. eauto. }
      destruct (Hcc _ _ Hx) as (i & m & Hi). destruct (Hcc _ _ Hy) as (i' & m' & Hi').
      by destruct (winv_row_unique _ _ Hw _ _ _ _ _ _ _ _ _ Hrs Hi Hrs' Hi') as (? & _).
  Qed.
  Lemma world_drops_held : world_drops w R ≡ₚ filter (λ x, x.2 ≠ []) (held w).
  Proof.
    apply NoDup_Permutation; [apply world_drops_nodup|by apply NoDup_filter, (held_nodup _ _ Hw)|].
    intros [[e c] v]. rewrite world_drops_elem elem_of_list_filter held_holds /=. tauto.
  Qed.
  Lemma world_drop_sized : ∃ ev, world_drop w = Some ev ∧ ev ≡ₚ dropping_sized w (cells w).
  Proof.
    exists (dropping3 w (world_drops w R)). split; [apply world_drop_run|]. rewrite /dropping3 world_drops_held /dropping_sized /dropping_all /cells.
    apply reflexive_eq. induction (held w) as [|[[e c] v] l IH]; [done|]. rewrite fmap_cons !filter_cons. cbn [fst snd].
    case_decide; [|done]. rewrite !bind_cons IH. done.
  Qed.
End drop.

(** *** The whole life of a world *)
Lemma books_lost w o r n : books w o r n → r ≠ RPanic RDuplicate →
  match o with SWorld (OWrite _ _ _) | SStore _ _ _ _ => False | _ => True end → lost n = [].
Proof.
  intros Hb Hr Ho. destruct o as [o|fs|ps|i u|i|i k j v]; try done; [|by destruct r; cbn in Hb; destruct Hb as (_ & _ & ?)..].
  destruct o as [cap meta bs fin|e|e t v|e t|e c|e c v|e c|t|e c v|e t|e]; try done; destruct r as [[[e'|b|]| |]|x]; cbn in Hb;
    try (by destruct Hb as (_ & _ & ?)); try (by destruct Hb as (_ & ? & _)); try (by destruct Hb as (? & ?)); try (destruct b; [by destruct Hb|by destruct Hb as (_ & _ & ?)]).
  destruct x; try (by destruct Hb as (_ & ? & _)).
Qed.
Lemma ledger_lost s l ns : ledger s l ns → no_duplicate l → no_overwrite l → ns ≫= lost = [].
Proof.
  intros [Hlen H] Hd Ho. assert (∀ n, n ∈ ns → lost n = []) as Hn.
  { intros n [i Hi]%elem_of_list_lookup_1. destruct (lookup_lt_is_Some_2 l i) as [[[o r] ev] Hl]. { rewrite -Hlen. by eapply lookup_lt_Some. }
    destruct (H _ _ _ _ _ Hl Hi) as (si & _ & Hb & _). eapply books_lost; [done|..].
    - exact (proj1 (Forall_lookup _ _) Hd _ _ Hl).
    - refine (proj1 (Forall_lookup _ _) Ho i o _). by rewrite /calls_of !list_lookup_fmap Hl. }
  clear H Hlen. induction ns as [|n ns IH]; [done|]. rewrite bind_cons Hn; [|by left]. apply IH. intros; apply Hn; by right.
Qed.
Lemma cells_new : cells (ss_world sess_new) = [].
Proof. by vm_compute. Qed.
Lemma life_ledger l s' : steps sess_new l s' → no_duplicate l → no_overwrite l →
  ∃ ns ev, ledger sess_new l ns ∧ world_drop (ss_world s') = Some ev ∧
    events_of l ++ ev ++ dropping_all (ss_world s') (filter (λ p, p.2 = []) (cells (ss_world s')))
      ≡ₚ dropping_all (ss_world s') (ns ≫= took) ++ (ns ≫= back).
Proof.
  intros Hst Hd Ho. pose proof (steps_inv _ _ _ sess_new_inv Hst) as Hs'. destruct (steps_ledger _ _ _ sess_new_inv Hst) as (ns & Hl & Hbal & Hev).
  destruct (Hev Hd) as [_ Hev']. destruct (sv_world _ Hs') as [[R HR] _]. destruct (world_drop_sized _ _ HR) as (ev & Hrun & Hwd).
  exists ns, ev. split_and!; [done|done|]. rewrite (ledger_lost _ _ _ Hl Hd Ho) cells_new app_nil_r in Hbal. cbn in Hbal.
  rewrite Hev' Hwd /dropping_sized /dropping_all. rewrite -!app_assoc (Permutation_app_comm (ns ≫= back)) !app_assoc. f_equiv.
  rewrite -!app_assoc -!bind_app. rewrite -Hbal filter_sized_split. f_equiv. apply Permutation_app_comm.
Qed.
