(** * Adding and removing over and over (C68) *)
From Verif Require Import ProofBase SpecSmall World History ProofEntities ProofBitset ProofArrayVec ProofUVec.
From Verif Require Export AddRounds SpecAddRounds SpecQuery ProofLimit ProofLocks ProofLedger ProofLife ProofFull.

(** ** Which archetypes a call makes *)
Lemma kinds_ids w R : winv w R → kinds w = arch_ids w.
Proof.
  intros Hw. apply list_eq. intros k. rewrite /kinds /arch_ids !list_lookup_fmap. destruct (w_archs w !! k) as [a|] eqn:Ha; [|done].
  cbn. f_equal. apply (as_storages _ (wi_shape _ _ Hw _ _ Ha)).
Qed.
Lemma moved_made w R w1 R1 w' R' e m m' P : winv w R → winv w1 R1 → winv w' R' → arch_ids w1 = arch_ids w →
  moved_to w1 R1 e P w' → rowof R1 e m → rowof R' e m' → (∀ d, P m d ↔ is_Some (m' !! d)) → made_for w w' e.
Proof.
  intros Hw Hw1 Hw' Hids (L & m0 & Hm0 & HL & HdL) Hm Hm' HP. pose proof (row_fun _ _ Hw1 _ _ _ Hm0 Hm) as ->.
  rewrite /made_for (kinds_ids _ _ Hw) (kinds_ids _ _ Hw'). rewrite -Hids. destruct HL as [[E _]|E]; [by left|]. right. exists L.
  split; [done|]. split.
  - intros c. rewrite HdL HP (has_row _ _ Hw'). split; [by exists m'|]. intros (m2 & Hm2 & H2). by rewrite (row_fun _ _ Hw' _ _ _ Hm' Hm2).
  - intros L' [k Hk]%elem_of_list_lookup Hsame. assert (k = length (arch_ids w1)) as ->.
    { eapply (winv_distinct_set _ _ Hw' _ _ L' L); [rewrite E; by apply lookup_app_l_Some|rewrite E; by apply list_lookup_middle|exact Hsame]. }
    apply lookup_lt_Some in Hk. lia.
Qed.
Lemma registers_ids w R t c w1 R1 : registers w R t c w1 R1 → 0 < length (w_archs w) → arch_ids w1 = arch_ids w.
Proof.
  intros (Hg & _) Hl. symmetry. apply list_eq_same_length with (length (arch_ids w1)); [done| |].
  - pose proof (gr_len _ _ Hg) as Hlen. rewrite -!arch_ids_length in Hlen, Hl. apply Nat.le_antisymm; [|lia].
    destruct (decide (length (arch_ids w) = 0)) as [?|H0]; [lia|].
    destruct (lookup_lt_is_Some_2 (arch_ids w) (length (arch_ids w) - 1)) as [L HL]; [lia|]. apply (gr_ids _ _ Hg), lookup_lt_Some in HL. lia.
  - intros i x y _ Hx Hy. apply (gr_ids _ _ Hg) in Hx. congruence.
Qed.
Lemma stored_len w e : stored w e → 0 < length (w_archs w).
Proof. intros (k & i & a & Ha & _). apply lookup_lt_Some in Ha. lia. Qed.
Lemma insert_dom (c : ecsid) (v : value) (m : gmap ecsid value) d : d = c ∨ is_Some (m !! d) ↔ is_Some (<[c := v]> m !! d).
Proof. destruct (decide (d = c)) as [->|]; [rewrite lookup_insert; split; [eauto|by left]|rewrite lookup_insert_ne //; naive_solver]. Qed.
Lemma delete_dom (c : ecsid) (m : gmap ecsid value) d : d ≠ c ∧ is_Some (m !! d) ↔ is_Some (delete c m !! d).
Proof. destruct (decide (d = c)) as [->|]; [rewrite lookup_delete; split; [naive_solver|by intros []]|rewrite lookup_delete_ne //; naive_solver]. Qed.
Lemma add_done_made w R w1 R1 e c v w' : winv w R → winv w1 R1 → arch_ids w1 = arch_ids w → add_done w1 R1 e c v w' → made_for w w' e.
Proof.
  intros Hw Hw1 Hids (_ & _ & Hmv & m & R' & cm & Hm & _ & _ & _ & Hw' & Hr).
  eapply (moved_made w R w1 R1 w' R' e m); [done..|apply Hr; by left|]. intros d. apply insert_dom.
Qed.
Lemma remove_done_made w R w1 R1 e c w' ev : winv w R → winv w1 R1 → arch_ids w1 = arch_ids w → remove_done w1 R1 e c w' ev → made_for w w' e.
Proof.
  intros Hw Hw1 Hids (_ & _ & Hmv & m & R' & cm & v & Hm & _ & _ & _ & Hw' & Hr).
  eapply (moved_made w R w1 R1 w' R' e m); [done..|apply Hr; by left|]. intros d. apply delete_dom.
Qed.
Lemma moves_made w o e r w' ev : WOk w → op_legal o w → op_tame o w → moves o = Some e → step o w = Done r w' ev → made_for w w' e.
Proof.
  intros [[R Hw] _] Hl [Hroom _]. fold (room 1 w) in Hroom. destruct o as [| |e0 t v|e0 t|e0 c|e0 c v|e0 c| | | |]; try done; intros [= ->]; cbn [step]; rewrite /bind.
  - destruct Hl as (He & Ht & Hv). pose proof (add_typed w R e t v Hw Hroom Ht Hv) as H. rewrite /wp in H.
    destruct (add_component e t v w) as [[] w2 ev2|r2 w2 ev2| |]; [|done..]. intros [= <- <- <-].
    destruct H as (-> & Hal & w1 & R1 & c & Hreg & H). destruct (registers_view _ _ _ _ _ _ Hw Hreg) as (Hw1 & Hg & _ & _ & _ & Hcase). destruct H as [(-> & Hd)|H].
    + destruct Hcase as [(_ & ->)|(_ & Hlc & _)]; [by left|]. exfalso. eapply dead_not_lives; [|exact Hlc]. by left.
    + eapply add_done_made; [done..| |done]. eapply registers_ids; [done|]. eapply stored_len.
      destruct (add_done_view _ _ _ _ _ _ Hw1 H) as (H1 & H2 & _). eapply (stored_old w R w1 R1); [done..|by apply lives_alive|done].
  - destruct Hl as (He & Ht). pose proof (remove_typed w R e t Hw Hroom Ht) as H. rewrite /wp in H.
    destruct (remove_component e t w) as [[] w2 ev2|r2 w2 ev2| |]; [|done..]. intros [= <- <- <-].
    destruct H as (Hal & w1 & R1 & c & Hreg & H). destruct (registers_view _ _ _ _ _ _ Hw Hreg) as (Hw1 & Hg & _ & _ & _ & Hcase). destruct H as [(-> & _ & Hd)|H].
    + destruct Hcase as [(_ & ->)|(_ & Hlc & _)]; [by left|]. exfalso. eapply dead_not_lives; [|exact Hlc]. by left.
    + eapply remove_done_made; [done..| |done]. eapply registers_ids; [done|]. eapply stored_len.
      destruct (remove_done_view _ _ _ _ _ _ Hw1 H) as (H1 & H2 & _). eapply (stored_old w R w1 R1); [done..|by apply lives_alive|done].
  - pose proof (add_dynamic w R e c Hw Hroom) as H. rewrite /wp in H. destruct (add_component_dynamic e c w) as [[] w2 ev2|r2 w2 ev2| |]; [|done..]. intros [= <- <- <-].
    destruct H as (-> & H). by eapply (add_done_made w R w R).
  - destruct Hl as (He & Hc & Hv). pose proof (add_all w R e c v Hw Hroom) as H. rewrite /wp in H. specialize (H ltac:(intros cm Hal Hcm; symmetry; by eapply value_fits_comp)).
    destruct (add_component_with_data e c v w) as [[] w2 ev2|r2 w2 ev2| |]; [|done..]. intros [= <- <- <-].
    destruct H as (-> & [(-> & _)|H]); [by left|]. by eapply (add_done_made w R w R).
  - pose proof (remove_all w R e c Hw Hroom) as H. rewrite /wp in H. destruct (remove_component_dynamic e c w) as [[] w2 ev2|r2 w2 ev2| |]; [|done..]. intros [= <- <- <-].
    destruct H as [(-> & _)|H]; [by left|]. by eapply (remove_done_made w R w R).
Qed.
(** ** All calls *)
Lemma made_for_only w w' e : made_for w w' e → made_only w w' (Some e).
Proof.
  intros [H|(L & H & HL & Hn)]; [exists []|exists [L]]; rewrite ?app_nil_r; (split; [done|]); intros L0; [by intros ?%elem_of_nil|].
  intros ->%elem_of_list_singleton. split; [done|]. right. by exists e.
Qed.
Lemma made_ids w R w' R' s : winv w R → winv w' R' → (∀ k L, arch_ids w !! k = Some L → arch_ids w' !! k = Some L) →
  (∀ k L, arch_ids w' !! k = Some L → k < length (w_archs w) ∨ L = [] ∨ ∃ e, s = Some e ∧ ∀ c, c ∈ L ↔ has w' e c) → made_only w w' s.
Proof.
  intros Hw Hw' Hids Hnew. rewrite /made_only (kinds_ids _ _ Hw) (kinds_ids _ _ Hw').
  assert (arch_ids w' = arch_ids w ++ drop (length (arch_ids w)) (arch_ids w')) as E.
  { rewrite -{1}(take_drop (length (arch_ids w)) (arch_ids w')). f_equal. apply list_eq. intros k.
    destruct (decide (k < length (arch_ids w))) as [Hk|Hk].
    - rewrite lookup_take //. apply lookup_lt_is_Some in Hk as [L HL]. by rewrite HL (Hids k L HL).
    - rewrite lookup_take_ge; [|lia]. symmetry. apply lookup_ge_None. lia. }
  exists (drop (length (arch_ids w)) (arch_ids w')). split; [done|]. intros L [k Hk]%elem_of_list_lookup. rewrite lookup_drop in Hk. split.
  - intros L' [k' Hk']%elem_of_list_lookup Hsame. pose proof (winv_distinct_set _ _ Hw' _ _ L' L (Hids _ _ Hk') Hk Hsame) as ->. apply lookup_lt_Some in Hk'. lia.
  - destruct (Hnew _ _ Hk) as [H|H]; [|done]. rewrite -arch_ids_length in H. lia.
Qed.
Lemma made_same w R w' R' s : winv w R → winv w' R' → arch_ids w' = arch_ids w → made_only w w' s.
Proof. intros Hw Hw' E. exists []. rewrite app_nil_r (kinds_ids _ _ Hw) (kinds_ids _ _ Hw') E. split; [done|]. by intros L ?%elem_of_nil. Qed.
Lemma step_made w o r w' ev : WOk w → op_legal o w → op_tame o w → step o w = Done r w' ev → made_only w w' (subject o r).
Proof.
  intros Hok Hl Ht E. destruct (moves o) as [e|] eqn:Hm.
  { assert (subject o r = Some e) as -> by by destruct o. apply made_for_only. by eapply moves_made. }
  pose proof Hok as [[R Hw] _]. pose proof Ht as [Hroom Htame]. fold (room 1 w) in Hroom.
  destruct o as [cap meta bs fin|e|e t v|e t|e c|e c v|e c|t|e c v|e t|e]; try done; cbn [step] in E; cbn [op_legal] in Hl.
  - destruct Hl as [Hlay Hl]. pose proof (spawn_program_spec w R cap meta bs fin Hw Hroom Hlay Hl Htame) as H. rewrite /wp in H. rewrite /bind in E.
    destruct (spawn_program cap meta bs fin w) as [e w2 ev2|r2 w2 ev2| |]; [|done..]. injection E as <- <- <-.
    destruct H as (-> & Hsg & R' & D & Hw' & HD & Hx). cbn [subject]. eapply made_ids; [done..|apply (sg_ids _ _ _ Hsg)|]. intros k L HL. case_decide.
    + destruct Hx as (_ & _ & Hlen). destruct (few_archs _ _ _ _ _ Hw' Hlen HL); auto.
    + destruct Hx as (Hnd & Hr & _ & _ & Hk). destruct (Hk k L HL) as [?|[?|Hk']]; [by left|by right; left|]. right; right. exists e. split; [done|].
      assert (rowof R' e (list_to_map D)) as Hrow by (apply Hr; by left). intros c. rewrite Hk' (has_row _ _ Hw'). split.
      * intros Hc. exists (list_to_map D). split; [done|]. rewrite -not_eq_None_Some -not_elem_of_list_to_map. tauto.
      * intros (m & Hm' & Hc). rewrite (row_fun _ _ Hw' _ _ _ Hm' Hrow) -not_eq_None_Some -not_elem_of_list_to_map in Hc. destruct (decide (c ∈ D.*1)); tauto.
  - pose proof (despawn_spec w R e Hw Hl Htame) as H. rewrite /wp in H. rewrite /bind in E. destruct (despawn e w) as [b w2 ev2|r2 w2 ev2| |]; [|done..]. injection E as <- <- <-.
    destruct H as [(_ & _ & -> & _)|(_ & _ & Hk & R' & m & ids & Hw' & _)]; [by eapply made_same|]. eapply made_same; [done..|]. apply (dk_ids _ _ _ Hk).
  - pose proof (register_all w R t Hw) as H. specialize (H ltac:(eapply room_le; [|done]; lia) Hl). rewrite /wp in H. rewrite /bind in E.
    destruct (get_or_create_type t w) as [c w2 ev2|r2 w2 ev2| |]; [|done..]. injection E as <- <- <-. destruct H as (-> & R' & Hreg).
    destruct (registers_ok _ _ _ _ _ _ Hreg) as [_ Hw']. destruct Hreg as (Hg & _). eapply made_ids; [done..|apply (gr_ids _ _ Hg)|]. intros k L HL.
    destruct (few_archs _ _ _ _ _ Hw' (gr_len _ _ Hg) HL); auto.
  - destruct Hl as (_ & _ & Hv). pose proof (write_all w R e c v Hw Hv) as H. rewrite /wp /= E in H.
    destruct H as (-> & [(_ & -> & _)|(_ & _ & _ & _ & _ & Hids & m & v0 & R' & _ & _ & _ & Hw' & _)]); [by eapply made_same|]. by eapply made_same.
  - pose proof (has_cases w R Hw e t) as H. rewrite /bind in E. destruct (has_component e t w) as [b w2 ev2|r2 w2 ev2| |]; [|done..].
    injection E as <- <- <-. destruct H as (-> & -> & _). by eapply made_same.
  - assert (wp (step (OIsAlive e)) w (λ _ w2 _, w2 = w) (λ _ _ _, True)) as H.
    { cbn [step]. apply wp_bind. apply wp_is_alive; intros; [by apply wp_ret..|done]. }
    rewrite /wp /= E in H. subst w'. by eapply made_same.
Qed.

(** ** Small facts *)
Lemma stored_kind w e : WOk w → stored w e → ∃ L, L ∈ kinds w ∧ ∀ c, c ∈ L ↔ has w e c.
Proof.
  intros [[R Hw] _] (k & i & Hp). pose proof Hp as (a & Ha & _). exists (columns a). split.
  - apply elem_of_list_fmap_1, elem_of_list_lookup. by exists k.
  - intros c. rewrite /columns (as_storages _ (wi_shape _ _ Hw _ _ Ha)). symmetry. by eapply (placed_has w R Hw).
Qed.
Lemma bytes_one w w' e c x : WOk w → WOk w' → ¬ has w e c → sets w w' e c x → bytes_held w' = bytes_held w + length x.
Proof.
  intros [[R Hw] _] [[R' Hw'] _] Hn Hs. rewrite /bytes_held /cells. assert (held w' ≡ₚ (e, c, x) :: held w) as ->.
  { apply NoDup_Permutation; [by eapply held_nodup| |].
    - apply NoDup_cons. split; [|by eapply held_nodup]. rewrite held_holds. intros H. apply Hn. by exists x.
    - intros [[e0 c0] x0]. rewrite elem_of_cons !held_holds Hs. split.
      + intros [(-> & -> & ->)|[_ H]]; [by left|by right].
      + intros [[= -> -> ->]|H]; [by left|]. right. split; [|done]. intros [-> ->]. apply Hn. by exists x0. }
  cbn. rewrite app_length. lia.
Qed.
Lemma unset_set w w' e c x : WOk w → holds w e c x → unsets w w' e c → ¬ has w' e c ∧ sets w' w e c x.
Proof.
  intros [[R Hw] _] Hh Hu. split.
  - intros [y Hy]. apply Hu in Hy as [H _]. by apply H.
  - intros e0 c0 x0. rewrite Hu. split.
    + intros H. destruct (decide (e0 = e ∧ c0 = c)) as [[-> ->]|Hd]; [|by right]. left. split; [done|]. split; [done|]. by eapply holds_fun.
    + intros [(-> & -> & ->)|(_ & _ & H)]; done.
Qed.
Lemma grown_trans w w1 w2 : WOk w2 → grown w w1 → grown w1 w2 → grown w w2.
Proof.
  intros [[R2 Hw2] _] (A1 & A2 & A3 & A4) (B1 & B2 & B3 & B4).
  assert (∀ c, new_type w w2 c ↔ new_type w w1 c ∨ new_type w1 w2 c) as Hn.
  { intros c. split.
    - intros (t & H1 & H2). destruct (w_types w1 !! t) as [c'|] eqn:E.
      + left. exists t. split; [|done]. pose proof (B4 _ _ E) as H. rewrite /type_id in H, H1 |- *. congruence.
      + right. exists t. split; [done|]. intros c'. rewrite /type_id E. done.
    - intros [(t & H1 & H2)|(t & H1 & H2)]; exists t; [split; [by apply B4|done]|]. split; [done|]. intros c' H. by eapply H2, A4. }
  split; [|split; [|split]].
  - intros e He. rewrite (B1 e He) (A1 e He) Hn. tauto.
  - intros e. rewrite Hn. intros [H|H]; [by apply A2|]. intros Hl. apply (B2 e H). apply A1; [|by left].
    destruct H as (t & Ht & _). by destruct (wi_types _ _ Hw2 _ _ Ht) as (_ & ? & _).
  - intros e. rewrite B3 A3 Hn. tauto.
  - intros t c H. by apply B4, A4.
Qed.
Lemma add_out s e t v w' ev : reachable s → sop_legal (SWorld (OAdd e t v)) s → sop_tame (SWorld (OAdd e t v)) s →
  step (OAdd e t v) (ss_world s) = Panicked ROutOfIds w' ev → no_index_left (ss_world s) ∧ ∀ c, ¬ type_id (ss_world s) t c.
Proof.
  intros Hs Hl Ht E. assert (no_index_left w') as Hn. { eapply (out_of_ids_none s _ (Sess w' (ss_open s)) ev Hs Hl Ht). by rewrite sworld_run E. }
  destruct (sv_world _ (reachable_inv s Hs)) as ((R & Hw) & _). destruct Hl as [(He & Hty & Hv) _]. destruct Ht as [Hroom _].
  pose proof (add_typed _ R e t v Hw Hroom Hty Hv) as H. cbn [step] in E. rewrite /bind in E. rewrite /wp in H.
  destruct (add_component e t v (ss_world s)) as [[] w2 ev2|r2 w2 ev2| |]; [done| |done..]. injection E as -> -> ->.
  destruct H as [H|[(_ & [(-> & H)|(_ & _ & Hno)])|(_ & _ & w1 & R1 & c & _ & [(_ & H)|(H & _)])]]; [done|naive_solver| |naive_solver|done].
  pose proof Hno as (Hg & Hty' & _). destruct (no_ids_view _ _ _ _ Hw Hno) as (_ & _ & _ & _ & Hnt). split; [|done].
  intros k Hk. destruct (Hn k Hk) as (e0 & H1 & H2 & H3). exists e0. split; [done|]. split; [done|]. apply lives_alive. apply lives_alive in H3.
  destruct (gr_alive_inv _ _ Hg e0 H1 H3) as [?|Hf]; [done|]. by apply fresh_type_same in Hf.
Qed.
Lemma reachable_one s o w : reachable s → Forall (λ q, q = None) (ss_open s) → sop_legal (SWorld o) s → sop_tame (SWorld o) s →
  (∃ r ev, step o (ss_world s) = Done r w ev) → reachable (Sess w (ss_open s)).
Proof.
  intros Hs Ho Hl Ht (r & ev & E). eapply reachable_steps; [exact Hs|].
  apply (steps_done _ [] s (SWorld o) (SRet r) (Sess w (ss_open s)) ev); [apply steps_nil|done|done|]. by rewrite sworld_run E.
Qed.

(** ** The rounds *)
Section rounds.
  Context (t : ty) (v : value) (Ht : ty_wf t) (Hv : length v = ty_size t).
  Context (w0 : world) (Hok0 : WOk w0) (es : list ecsid) (Hes : without w0 t es).
  (** The two archetypes between which [e] goes back and forth. *)
  Definition both (w : world) (e : ecsid) : Prop :=
    ∃ c L1 L2, type_id w t c ∧ L1 ∈ kinds w ∧ L2 ∈ kinds w ∧ (∀ d, d ∈ L1 ↔ d ≠ c ∧ has w e d) ∧ (∀ d, d ∈ L2 ↔ d = c ∨ has w e d).
  (** [M] are the entities that have the component now, [P] those that may still need an archetype. *)
  Record ar (s : sess) (M P : list ecsid) : Prop := {
    ar_reach : reachable s;
    ar_none : Forall (λ q, q = None) (ss_open s);
    ar_grown : grown w0 (ss_world s);
    ar_other : other_types w0 (ss_world s) t;
    ar_holds : ∀ e c x, holds (ss_world s) e c x ↔ holds w0 e c x ∨ (e ∈ M ∧ type_id (ss_world s) t c ∧ x = v);
    ar_reg : M ≠ [] → ∃ c, type_id (ss_world s) t c;
    ar_use : usable (ss_world s) t;
    ar_bytes : bytes_held (ss_world s) = bytes_held w0 + length M * ty_size t;
    ar_len : length (w_archs (ss_world s)) + length P ≤ length (w_archs w0) + length es;
    ar_both : ∀ e, e ∈ es → e ∈ P ∨ both (ss_world s) e
  }.
  Context (Hsp : spacious w0 t (length es)).
  Lemma ar_ok s M P : ar s M P → WOk (ss_world s).
  Proof. intros H. by apply (sv_world _ (reachable_inv _ (ar_reach _ _ _ H))). Qed.
  Lemma ar_typed s M P c : ar s M P → type_id (ss_world s) t c → lives (ss_world s) c ∧ ∀ e, e ∈ es → ¬ has w0 e c.
  Proof using All.
    intros H Hc. split.
    - destruct (ar_use _ _ _ H) as [(c' & Hc' & Hl)|[Hn _]]; [|by apply Hn in Hc]. rewrite /type_id in Hc, Hc'. by simplify_eq.
    - intros e He [x Hx]. destruct Hes as [_ He']. destruct (He' e He) as (_ & _ & _ & Hno).
      destruct (w_types w0 !! t) as [c'|] eqn:E.
      + destruct (ar_grown _ _ _ H) as (_ & _ & _ & G4). pose proof (G4 _ _ E) as E'. rewrite /type_id in E', Hc. rewrite Hc in E'. injection E' as <-. apply (Hno c E). by exists x.
      + destruct (ar_grown _ _ _ H) as (_ & G2 & _). apply (G2 c). { exists t. split; [done|]. intros c'. by rewrite /type_id E. }
        destruct Hok0 as [[R0 Hw0] _]. destruct (holds_size _ _ Hw0 _ _ _ Hx) as [Hal _]. by apply lives_alive.
  Qed.
  Lemma ar_ent s M P e : ar s M P → e ∈ es → id_wf e ∧ lives (ss_world s) e ∧ stored (ss_world s) e.
  Proof using All.
    intros H He. destruct Hes as [_ He']. destruct (He' e He) as (H1 & H2 & H3 & _). destruct (ar_grown _ _ _ H) as (G1 & _ & G3 & _).
    split; [done|]. split; [apply G1; [done|by left]|apply G3; by left].
  Qed.
  Lemma ar_tame s M P o : ar s M P → match o with SWorld (OAdd _ _ _) | SWorld (ORemove _ _) => True | _ => False end → sop_tame o s.
  Proof using All.
    intros H Ho. destruct o as [[]| | | | |]; try done; (split; [|done]); destruct Hsp as [_ Hr]; pose proof (ar_len _ _ _ H); lia.
  Qed.
  (** The archetypes after a move of [e]. *)
  Lemma ar_kinds w w' P e c : WOk w → WOk w' → e ∈ es → length (w_archs w) + length P ≤ length (w_archs w0) + length es →
    (∀ e0, e0 ∈ es → e0 ∈ P ∨ both w e0) → made_for w w' e → stored w e → stored w' e → type_id w' t c → (∀ c', type_id w t c' → type_id w' t c') →
    (∀ e0 d, d ≠ c → has w' e0 d ↔ has w e0 d) → (has w' e c ∧ ¬ has w e c ∨ has w e c ∧ ¬ has w' e c) →
    ∃ P', (∀ e0, e0 ∈ P' ↔ e0 ∈ P ∧ e0 ≠ e) ∧ length (w_archs w') + length P' ≤ length (w_archs w0) + length es ∧
      (∀ e0, e0 ∈ es → e0 ∈ P' ∨ both w' e0) ∧ (P = [] → kinds w' = kinds w).
  Proof using All.
    intros Hw Hw' He Hlen HP Hm Hst Hst' Hc Hty Hd Hec.
    assert (∀ L, L ∈ kinds w → L ∈ kinds w') as Hsub. { intros L HL. destruct Hm as [->|(L' & -> & _)]; [done|]. apply elem_of_app. by left. }
    assert (∀ e0, both w e0 → both w' e0) as Hkeep.
    { intros e0 (c' & L1 & L2 & H0 & H1 & H2 & H3 & H4). apply Hty in H0. rewrite /type_id in H0, Hc. rewrite Hc in H0. injection H0 as <-.
      exists c, L1, L2. split; [done|]. split; [by apply Hsub|]. split; [by apply Hsub|]. split; intros d; [rewrite H3|rewrite H4]; destruct (decide (d = c)) as [->|Hn]; try naive_solver; rewrite Hd //. }
    assert (both w' e) as Hbe.
    { destruct (stored_kind w e Hw Hst) as (L & HL & HdL). destruct (stored_kind w' e Hw' Hst') as (L' & HL' & HdL').
      destruct Hec as [[H1 H2]|[H1 H2]].
      - exists c, L, L'. split; [done|]. split; [by apply Hsub|]. split; [done|]. split; intros d; [rewrite HdL|rewrite HdL']; destruct (decide (d = c)) as [->|Hn]; try naive_solver; rewrite Hd //; naive_solver.
      - exists c, L', L. split; [done|]. split; [done|]. split; [by apply Hsub|]. split; intros d; [rewrite HdL'|rewrite HdL]; destruct (decide (d = c)) as [->|Hn]; try naive_solver; rewrite Hd //; naive_solver. }
    assert (both w e → kinds w' = kinds w) as Hsame.
    { intros (c' & L1 & L2 & H0 & H1 & H2 & H3 & H4). apply Hty in H0. rewrite /type_id in H0, Hc. rewrite Hc in H0. injection H0 as <-.
      destruct Hm as [->|(L & _ & HdL & Hno)]; [done|]. exfalso. destruct Hec as [[H5 H6]|[H5 H6]]; [apply (Hno L2 H2)|apply (Hno L1 H1)]; intros d;
        [rewrite H4|rewrite H3]; rewrite HdL; destruct (decide (d = c)) as [->|Hn]; try naive_solver; rewrite Hd //; naive_solver. }
    assert (length (w_archs w') = length (kinds w') ∧ length (w_archs w) = length (kinds w)) as [El El'] by by rewrite /kinds !fmap_length.
    exists (filter (λ x, x ≠ e) P). split; [|split; [|split]].
    - intros e0. rewrite elem_of_list_filter. tauto.
    - destruct (decide (e ∈ P)) as [Hin|Hnin].
      + assert (length (filter (λ x, x ≠ e) P) < length P). { apply filter_length_lt with e; [done|]. naive_solver. }
        destruct Hm as [E|(L & E & _)]; rewrite E in El; [lia|]. rewrite app_length /= in El. lia.
      + pose proof (filter_length (λ x, x ≠ e) P). destruct (HP e He) as [?|Hb]; [done|]. rewrite (Hsame Hb) in El. lia.
    - intros e0 He0. destruct (decide (e0 = e)) as [->|Hne]; [by right|]. destruct (HP e0 He0) as [H|H]; [left; by apply elem_of_list_filter|right; by apply Hkeep].
    - intros ->. destruct (HP e He) as [H|H]; [by apply elem_of_nil in H|by apply Hsame].
  Qed.
  Lemma add_one s M P e : ar s M P → e ∈ es → e ∉ M → length M < length es →
    ∃ s' P', sstep (SWorld (OAdd e t v)) s = Done (SRet RUnit) s' [] ∧ ar s' (M ++ [e]) P' ∧
      (∀ e0, e0 ∈ P' ↔ e0 ∈ P ∧ e0 ≠ e) ∧ (P = [] → kinds (ss_world s') = kinds (ss_world s)).
  Proof using All.
    intros H He HM Hlt. pose proof (ar_ok _ _ _ H) as Hok. destruct (ar_ent _ _ _ e H He) as (Hwf & Hl & Hst).
    assert (sop_legal (SWorld (OAdd e t v)) s) as Hleg by (split; [done|right; by apply H]). pose proof (ar_tame _ _ _ (SWorld (OAdd e t v)) H I) as Htame.
    assert (∀ c, type_id (ss_world s) t c → ¬ has (ss_world s) e c) as Hnh.
    { intros c Hc [x Hx]. destruct (ar_typed _ _ _ c H Hc) as [_ Hno]. apply (ar_holds _ _ _ H) in Hx as [Hx|(? & _)]; [|done]. apply (Hno e He). by exists x. }
    pose proof (add_typed_view (ss_world s) e t v Hok (proj1 Hleg) Htame) as Hview.
    pose proof (sstep_quiet s (SWorld (OAdd e t v)) (ar_reach _ _ _ H) Hleg Htame) as Hq.
    assert (S (length M) * ty_size t ≤ length es * ty_size t) as Hmul by (apply Nat.mul_le_mono_r; lia).
    specialize (Hq ltac:(cbn [call_bytes]; rewrite (ar_bytes _ _ _ H) Hv; destruct Hsp as [Hb _]; lia)).
    pose proof (add_out s e t v) as Hout. pose proof (moves_made (ss_world s) (OAdd e t v) e) as Hmade. rewrite sworld_run in Hq. rewrite sworld_run.
    destruct (step (OAdd e t v) (ss_world s)) as [r w' ev|r w' ev| |] eqn:E; [| |done..].
    - destruct Hview as (-> & -> & _ & Hg & Ho & c & Hc & Hcase). destruct Hcase as [(Hlc & _ & Hnc & Hset)|(Hnl & Hc' & Ew)]; [|exfalso; apply Hnl; rewrite Ew; by apply (ar_typed _ _ _ c H Hc')].
      assert (reachable (Sess w' (ss_open s))) as Hs'. { eapply (reachable_one s (OAdd e t v)); [apply H|apply H|done|done|eauto]. }
      assert (WOk w') as Hok' by by apply (sv_world _ (reachable_inv _ Hs')).
      assert (stored w' e) as Hst'. { destruct Hg as (_ & _ & G3 & _). apply G3. by left. }
      destruct (ar_kinds (ss_world s) w' P e c Hok Hok' He (ar_len _ _ _ H) (ar_both _ _ _ H)) as (P' & HP' & Hlen' & Hb' & Hk'); try done.
      { by eapply Hmade. }
      { apply Hg. }
      { intros e0 d Hd. rewrite /has. setoid_rewrite (Hset e0 d _). naive_solver. }
      { left. split; [|done]. exists v. apply Hset. by left. }
      exists (Sess w' (ss_open s)), P'. split; [done|]. split; [|split; [done|]].
      + constructor; cbn [ss_world ss_open]; try done.
        * apply H.
        * eapply grown_trans; [done|apply H|done].
        * intros t' c' Hne. rewrite (Ho _ _ Hne). by apply H.
        * intros e0 c0 x. rewrite (Hset e0 c0 x) (ar_holds _ _ _ H) elem_of_app elem_of_list_singleton.
          assert (∀ c', type_id (ss_world s) t c' → c' = c) as Hcc. { intros c' H'. destruct Hg as (_ & _ & _ & G4). apply G4 in H'. rewrite /type_id in H', Hc. by simplify_eq. }
          assert (type_id w' t c0 ↔ c0 = c) as ->. { rewrite /type_id in Hc |- *. rewrite Hc. naive_solver. }
          split.
          -- intros [(-> & -> & ->)|(Hn & [Hh|(H1 & H2 & ->)])]; [right; by auto|by left|]. right. split; [by left|]. split; [by apply Hcc|done].
          -- intros [Hh|([H1| ->] & -> & ->)]; [|..|by left].
             ++ right. split; [|by left]. intros [-> ->]. apply Hnc. exists x. apply (ar_holds _ _ _ H). by left.
             ++ right. split; [by intros [-> _]|]. right. split; [done|]. split; [|done].
                assert (∃ c', type_id (ss_world s) t c') as [c' Hc'].
                { apply (ar_reg _ _ _ H). by intros ->; apply elem_of_nil in H1. }
                by rewrite -(Hcc c' Hc').
        * intros _. by exists c.
        * left. by exists c.
        * rewrite (bytes_one (ss_world s) w' e c v) // (ar_bytes _ _ _ H) app_length /= Hv. lia.
      + intros ->. by apply Hk'.
    - exfalso. destruct Hview as [->|(Hg & Hh & _ & [(_ & [(-> & Hu)|[(-> & Hn)|(-> & _ & Hn)]] & _)|(_ & _ & c & Hc & Hrej)])].
      + by eapply Hq.
      + rewrite /unissued in Hu. rewrite /lives in Hl. rewrite Hl in Hu. done.
      + done.
      + destruct (Hout w' ev (ar_reach _ _ _ H) Hleg Htame eq_refl) as [Hno _]. destruct (ar_use _ _ _ H) as [(c & Hc & _)|[_ Hx]]; [by apply (Hn c)|done].
      + assert (r ≠ RCapacity ∧ r ≠ RColumnLength) as [Hr1 Hr2] by (destruct Hrej as [(-> & _)|[(-> & _)|(-> & _)]]; done).
        assert (reachable (Sess w' (ss_open s))) as Hs'.
        { eapply reachable_steps; [apply H|]. eapply (steps_panic _ [] s (SWorld (OAdd e t v)) r (Sess w' (ss_open s)) ev); [apply steps_nil|done|done|by rewrite sworld_run E|done]. }
        assert (WOk w') as Hok' by by apply (sv_world _ (reachable_inv _ Hs')).
        assert (lives w' e) as Hl'. { apply Hg; [done|by left]. }
        assert (stored w' e) as Hst'. { apply Hg. by left. }
        assert (lives w' c ∧ ¬ has (ss_world s) e c) as [Hlc Hnc].
        { destruct Hok' as [[R' Hw'] _]. destruct (wi_types _ _ Hw' _ _ Hc) as (_ & Hwc & _). destruct (w_types (ss_world s) !! t) as [c'|] eqn:E'.
          - assert (c' = c) as ->. { destruct Hg as (_ & _ & _ & G4). apply G4 in E'. rewrite /type_id in E', Hc. by simplify_eq. }
            split; [|by apply Hnh]. apply Hg; [done|]. left. by apply (ar_typed _ _ _ c H).
          - assert (new_type (ss_world s) w' c) as Hnew. { exists t. split; [done|]. intros c'. by rewrite /type_id E'. }
            split; [apply Hg; [done|by right]|]. intros [x Hx]. destruct Hok as [[R Hw] _]. destruct (holds_size _ _ Hw _ _ _ Hx) as [Hal _].
            apply (proj1 (proj2 Hg) c Hnew). by apply lives_alive. }
        destruct Hrej as [(_ & [Hu|Hu])|[(_ & _ & _ & [Hu|Hu])|(_ & Hx)]].
        * rewrite /unissued in Hu. rewrite /lives in Hl'. rewrite Hl' in Hu. done.
        * rewrite /unissued in Hu. rewrite /lives in Hlc. rewrite Hlc in Hu. done.
        * done.
        * apply Hu. by eapply typed_stored.
        * apply Hnc. by rewrite -(has_after _ _ _ _ Hh).
  Qed.
  Lemma remove_one s M P e : ar s (e :: M) P → e ∈ es → e ∉ M → length M < length es →
    ∃ s' P', sstep (SWorld (ORemove e t)) s = Done (SRet RUnit) s' [EvDrop (DropOf t) v] ∧ ar s' M P' ∧
      (∀ e0, e0 ∈ P' ↔ e0 ∈ P ∧ e0 ≠ e) ∧ (P = [] → kinds (ss_world s') = kinds (ss_world s)).
  Proof using All.
    intros H He HM Hlt. pose proof (ar_ok _ _ _ H) as Hok. destruct (ar_ent _ _ _ e H He) as (Hwf & Hl & Hst).
    assert (sop_legal (SWorld (ORemove e t)) s) as Hleg by (split; [done|right; by apply H]). pose proof (ar_tame _ _ _ (SWorld (ORemove e t)) H I) as Htame.
    destruct (ar_reg _ _ _ H) as [c Hc]; [done|]. destruct (ar_typed _ _ _ c H Hc) as [Hlc Hno].
    assert (∀ c', type_id (ss_world s) t c' → c' = c) as Hcc. { intros c' H'. rewrite /type_id in H', Hc. by simplify_eq. }
    assert (holds (ss_world s) e c v) as Hh. { apply (ar_holds _ _ _ H). right. split; [by left|done]. }
    pose proof (remove_typed_view (ss_world s) e t Hok (proj1 Hleg) Htame) as Hview.
    pose proof (sstep_quiet s (SWorld (ORemove e t)) (ar_reach _ _ _ H) Hleg Htame) as Hq.
    assert (N.of_nat (bytes_held (ss_world s) + call_bytes (SWorld (ORemove e t))) <= byte_limit)%N as Hby.
    { cbn [call_bytes]. rewrite (ar_bytes _ _ _ H). cbn [length]. assert (S (length M) * ty_size t ≤ length es * ty_size t) by (apply Nat.mul_le_mono_r; lia). destruct Hsp as [Hb _]. lia. }
    specialize (Hq Hby). clear Hby.
    pose proof (moves_made (ss_world s) (ORemove e t) e) as Hmade. rewrite sworld_run in Hq. rewrite sworld_run.
    destruct (step (ORemove e t) (ss_world s)) as [r w' ev|r w' ev| |] eqn:E; [| |done..].
    - destruct Hview as (-> & _ & Hg & Ho & c' & Hc1 & Hc2%Hcc & Hcase). subst c'. destruct Hcase as [(_ & _ & Hun & x & Hx & ->)|(Hnl & _)]; [|done].
      assert (x = v) as ->. { destruct Hok as [[R Hw] _]. by eapply holds_fun. }
      assert (reachable (Sess w' (ss_open s))) as Hs'. { eapply (reachable_one s (ORemove e t)); [apply H|apply H|done|done|eauto]. }
      assert (WOk w') as Hok' by by apply (sv_world _ (reachable_inv _ Hs')).
      assert (stored w' e) as Hst'. { destruct Hg as (_ & _ & G3 & _). apply G3. by left. }
      assert (dropping (ss_world s) c v = [EvDrop (DropOf t) v]) as ->.
      { destruct (typed_stored _ t c Hok Hc Hlc) as [_ Hr]. rewrite /dropping /recorded /dtor in Hr |- *. destruct (get_entity_meta c (ss_world s)) as [[m|]| | |]; [|done..]. by rewrite Hr. }
      destruct (unset_set _ _ _ _ _ Hok Hh Hun) as [Hnc Hset].
      destruct (ar_kinds (ss_world s) w' P e c Hok Hok' He (ar_len _ _ _ H) (ar_both _ _ _ H)) as (P' & HP' & Hlen' & Hb' & Hk'); try done.
      { by eapply Hmade. }
      { apply Hg. }
      { intros e0 d Hd. rewrite /has. setoid_rewrite (Hun e0 d _). naive_solver. }
      { right. split; [|done]. by exists v. }
      exists (Sess w' (ss_open s)), P'. split; [done|]. split; [|split; [done|done]].
      constructor; cbn [ss_world ss_open]; try done.
      * apply H.
      * eapply grown_trans; [done|apply H|done].
      * intros t' c' Hne. rewrite (Ho _ _ Hne). by apply H.
      * intros e0 c0 x. rewrite (Hun e0 c0 x) (ar_holds _ _ _ H) elem_of_cons.
        assert (type_id (ss_world s) t c0 ↔ c0 = c) as ->. { rewrite /type_id in Hc |- *. rewrite Hc. naive_solver. }
        assert (type_id w' t c0 ↔ c0 = c) as ->. { rewrite /type_id in Hc1 |- *. rewrite Hc1. naive_solver. }
        split.
        -- intros (Hn & [Hx'|([->|H1] & -> & ->)]); [by left|by destruct Hn|by right].
        -- intros [Hx'|(H1 & -> & ->)].
           ++ split; [|by left]. intros [-> ->]. apply (Hno e He). by exists x.
           ++ split; [by intros [-> _]|]. right. split; [by right|done].
      * intros _. by exists c.
      * left. exists c. split; [done|]. destruct Hok' as [[R' Hw'] _]. destruct (wi_types _ _ Hw' _ _ Hc1) as (_ & Hwc & _). apply Hg; [done|by left].
      * pose proof (bytes_one w' (ss_world s) e c v Hok' Hok Hnc Hset) as Hb. rewrite (ar_bytes _ _ _ H) Hv /= in Hb. lia.
    - exfalso. destruct Hview as [->|(_ & Hg & Hh' & _ & [[(-> & Hu)|[(-> & Hn)|(-> & _ & Hn)]]|(c' & Hc' & Hrej)])].
      + by eapply Hq.
      + rewrite /unissued in Hu. rewrite /lives in Hl. rewrite Hl in Hu. done.
      + done.
      + by apply (Hn c).
      + assert (c' = c) as ->. { destruct Hg as (_ & _ & _ & G4). apply G4 in Hc. rewrite /type_id in Hc, Hc'. by simplify_eq. }
        assert (lives w' e) as Hl'. { apply Hg; [done|by left]. }
        assert (stored w' e) as Hst'. { apply Hg. by left. }
        assert (lives w' c) as Hlc'. { destruct Hok as [[R Hw] _]. destruct (wi_types _ _ Hw _ _ Hc) as (_ & Hwc & _). apply Hg; [done|by left]. }
        destruct Hrej as [(_ & [Hu|Hu])|[(_ & _ & _ & Hu)|(_ & _ & Hx)]].
        * rewrite /unissued in Hu. rewrite /lives in Hl'. rewrite Hl' in Hu. done.
        * rewrite /unissued in Hu. rewrite /lives in Hlc'. rewrite Hlc' in Hu. done.
        * done.
        * apply Hx. exists v. by apply Hh'.
  Qed.
  Let dr : event := EvDrop (DropOf t) v.
  Lemma es_nodup : NoDup es.
  Proof using All. apply Hes. Qed.
  Lemma adds_run rest : ∀ M s P, es = M ++ rest → ar s M P →
    ∃ s' P', add_each t v rest s = Done () s' [] ∧ ar s' es P' ∧ (∀ e0, e0 ∈ P' ↔ e0 ∈ P ∧ e0 ∉ rest) ∧
      (P = [] → kinds (ss_world s') = kinds (ss_world s)).
  Proof using All.
    induction rest as [|e rest IH]; intros M s P Ees H.
    - rewrite app_nil_r in Ees. subst M. exists s, P. split; [done|]. split; [done|]. split; [|done]. intros e0. rewrite elem_of_nil. tauto.
    - pose proof es_nodup as Hnd. rewrite {1}Ees in Hnd. apply NoDup_app in Hnd as (_ & Hdis & _).
      destruct (add_one s M P e H) as (s1 & P1 & E1 & H1 & HP1 & Hk1).
      { rewrite Ees. apply elem_of_app. right. left. }
      { intros HM. by apply (Hdis e HM); left. }
      { rewrite Ees app_length /=. lia. }
      destruct (IH (M ++ [e]) s1 P1) as (s2 & P2 & E2 & H2 & HP2 & Hk2); [by rewrite -app_assoc|done|].
      exists s2, P2. split; [|split; [done|split]].
      + cbn [add_each]. by rewrite (bind_done_nil _ _ _ _ _ E1).
      + intros e0. rewrite HP2 HP1 elem_of_cons. tauto.
      + intros ->. rewrite Hk2; [by apply Hk1|]. apply elem_of_nil_inv. intros x [Hx _]%HP1. by apply elem_of_nil in Hx.
  Qed.
  Lemma removes_run rest : ∀ pre s, es = pre ++ rest → ar s rest [] →
    ∃ s', remove_each t rest s = Done () s' (replicate (length rest) dr) ∧ ar s' [] [] ∧ kinds (ss_world s') = kinds (ss_world s).
  Proof using All.
    induction rest as [|e rest IH]; intros pre s Ees H.
    - by exists s.
    - pose proof es_nodup as Hnd. rewrite {1}Ees in Hnd. apply NoDup_app in Hnd as (_ & _ & Hnd). apply NoDup_cons in Hnd as [Hnd _].
      destruct (remove_one s rest [] e H) as (s1 & P1 & E1 & H1 & HP1 & Hk1); [|done|rewrite Ees app_length /=; lia|].
      { rewrite Ees. apply elem_of_app. right. left. }
      assert (P1 = []) as ->. { apply elem_of_nil_inv. intros x [Hx _]%HP1. by apply elem_of_nil in Hx. }
      destruct (IH (pre ++ [e]) s1) as (s2 & E2 & H2 & Hk2); [by rewrite -app_assoc|done|]. exists s2. split; [|split; [done|by rewrite Hk2 Hk1]].
      cbn [remove_each length replicate]. rewrite /bind E1 E2. done.
  Qed.
  Lemma round_run s P : ar s [] P → (∀ e, e ∈ P → e ∈ es) →
    ∃ s', add_remove_round t v es s = Done () s' (replicate (length es) dr) ∧ ar s' [] [] ∧ (P = [] → kinds (ss_world s') = kinds (ss_world s)).
  Proof using All.
    intros H HP. destruct (adds_run es [] s P eq_refl H) as (s1 & P1 & E1 & H1 & HP1 & Hk1).
    assert (P1 = []) as ->. { apply elem_of_nil_inv. intros x [Hx Hn]%HP1. by apply Hn, HP. }
    destruct (removes_run es [] s1 eq_refl H1) as (s2 & E2 & H2 & Hk2). exists s2. split; [|split; [done|]].
    - rewrite /add_remove_round. by rewrite (bind_done_nil _ _ _ _ _ E1).
    - intros ->. by rewrite Hk2 Hk1.
  Qed.
  Lemma rounds_run m : ∀ s, ar s [] [] →
    ∃ s', add_remove_rounds t v m es s = Done () s' (replicate (m * length es) dr) ∧ ar s' [] [] ∧ kinds (ss_world s') = kinds (ss_world s).
  Proof using All.
    induction m as [|m IH]; intros s H; [by exists s|].
    destruct (round_run s [] H) as (s1 & E1 & H1 & Hk1); [by intros e ?%elem_of_nil|]. destruct (IH s1 H1) as (s2 & E2 & H2 & Hk2). exists s2.
    split; [|split; [done|by rewrite Hk2 Hk1]]. cbn [add_remove_rounds Nat.mul]. rewrite /bind E1 E2 replicate_add. done.
  Qed.
  Lemma ar_start s : reachable s → Forall (λ q, q = None) (ss_open s) → ss_world s = w0 → usable w0 t → ar s [] es.
  Proof using All.
    intros Hs Ho E Hu. constructor; rewrite ?E; try done.
    - apply grown_refl.
    - intros e c x. split; [by left|]. intros [?|(?%elem_of_nil & _)]; done.
    - intros e He. by left.
  Qed.
  Lemma ar_end s P : ar s [] P → reachable s ∧ same_holds w0 (ss_world s) ∧ grown w0 (ss_world s) ∧ other_types w0 (ss_world s) t ∧
    length (w_archs (ss_world s)) ≤ length (w_archs w0) + length es.
  Proof using All.
    intros H. split; [apply H|]. split; [|split; [apply H|split; [apply H|]]].
    - intros e c x. rewrite (ar_holds _ _ _ H). split; [|by left]. intros [?|(?%elem_of_nil & _)]; done.
    - pose proof (ar_len _ _ _ H). lia.
  Qed.
End rounds.

(** What is left of some rounds. *)
Lemma rounds_all t v es s : reachable s → Forall (λ q, q = None) (ss_open s) → ty_wf t → length v = ty_size t →
  without (ss_world s) t es → usable (ss_world s) t → spacious (ss_world s) t (length es) →
  ∃ s1, add_remove_round t v es s = Done () s1 (replicate (length es) (EvDrop (DropOf t) v)) ∧
    length (kinds (ss_world s1)) ≤ length (kinds (ss_world s)) + length es ∧
    ∀ m, ∃ s2, add_remove_rounds t v m es s1 = Done () s2 (replicate (m * length es) (EvDrop (DropOf t) v)) ∧
      reachable s2 ∧ Forall (λ q, q = None) (ss_open s2) ∧ kinds (ss_world s2) = kinds (ss_world s1) ∧ same_holds (ss_world s) (ss_world s2) ∧ grown (ss_world s) (ss_world s2) ∧
      other_types (ss_world s) (ss_world s2) t.
Proof.
  intros Hs Ho Ht Hv Hes Hu Hsp. assert (WOk (ss_world s)) as Hok by by apply (sv_world _ (reachable_inv _ Hs)).
  pose proof (ar_start t v Ht Hv (ss_world s) Hok es Hes Hsp s Hs Ho eq_refl Hu) as H0.
  destruct (round_run t v Ht Hv (ss_world s) Hok es Hes Hsp s es H0) as (s1 & E1 & H1 & _); [done|]. exists s1. split; [done|]. split.
  { rewrite /kinds !fmap_length. pose proof (ar_len _ _ _ _ _ _ _ H1). cbn in *. lia. }
  intros m. destruct (rounds_run t v Ht Hv (ss_world s) Hok es Hes Hsp m s1 H1) as (s2 & E2 & H2 & Hk2). exists s2. split; [done|].
  destruct (ar_end t v Ht Hv (ss_world s) Hok es Hes Hsp s2 [] H2) as (H3 & H4 & H5 & H6 & _). pose proof (ar_none _ _ _ _ _ _ _ H2). done.
Qed.
