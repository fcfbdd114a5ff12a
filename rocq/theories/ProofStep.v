(** * Every call keeps the world invariant *)
From Verif Require Import ProofBase SpecSmall World History ProofEntities ProofBitset ProofArrayVec ProofUVec.
From Verif Require Export ProofObserve.

Notation dead w e := (ents_is_alive (w_ents w) e = Some false).
Notation oob w e := (ents_is_alive (w_ents w) e = None).

Definition rows_set (R R' : list (list row)) (e : ecsid) (m : gmap ecsid value) : Prop :=
  ∀ e0 m0, rowof R' e0 m0 ↔ (e0 = e ∧ m0 = m) ∨ (e0 ≠ e ∧ rowof R e0 m0).
(** The archetype the entity goes to, and that no other one is made. *)
Definition moved_to (w : world) (R : list (list row)) (e : ecsid) (P : gmap ecsid value → ecsid → Prop) (w' : world) : Prop :=
  ∃ L m, rowof R e m ∧ adds_one w w' L ∧ ∀ d, d ∈ L ↔ P m d.
Lemma moved_to_len w R e P w' : moved_to w R e P w' → length (w_archs w') ≤ S (length (w_archs w)).
Proof. intros (L & m & _ & H & _). by eapply adds_one_len. Qed.
Definition add_done (w : world) (R : list (list row)) (e c : ecsid) (v : value) (w' : world) : Prop :=
  alive (w_ents w) c ∧ keeps w w' ∧ moved_to w R e (λ m d, d = c ∨ is_Some (m !! d)) w' ∧
  ∃ m R' cm, rowof R e m ∧ m !! c = None ∧ comp_of w c = Some cm ∧ cm_size cm = length v ∧
    winv w' R' ∧ rows_set R R' e (<[c := v]> m).
Definition add_panic (w : world) (R : list (list row)) (e c : ecsid) (r : reason) (w' : world) : Prop :=
  (w' = w ∧ ((r = RNoGeneration ∧ (oob w e ∨ oob w c)) ∨
             (r = RUnwrap ∧ alive (w_ents w) e ∧ alive (w_ents w) c ∧ meta_at w (uindex e) = None) ∨
             (r = RAssert ∧ alive (w_ents w) c ∧ ∃ m, rowof R e m ∧ is_Some (m !! c)))) ∨
  (r = RUnwrap ∧ alive (w_ents w) c ∧ comp_of w c = None ∧ winv w' R ∧ wext w R w' R ∧ arch_ids w' = arch_ids w ∧
   ∃ m, rowof R e m ∧ m !! c = None).

Lemma add_all w R e c v :
  winv w R → room 1 w →
  (∀ cm, alive (w_ents w) c → comp_of w c = Some cm → cm_size cm = length v) →
  wp (add_component_with_data e c v) w
     (λ _ w' ev, ev = [] ∧ ((w' = w ∧ (dead w e ∨ dead w c)) ∨ add_done w R e c v w'))
     (λ r w' ev, ev = [] ∧ add_panic w R e c r w').
Proof.
  intros Hw Hroom Hv. destruct (ents_is_alive (w_ents w) e) as [[]|] eqn:He; last first.
  { rewrite /add_component_with_data. apply wp_bind, wp_is_alive; [by rewrite /alive He|by rewrite He|].
    intros _. rewrite /add_panic. tauto. }
  { rewrite /add_component_with_data. apply wp_bind, wp_is_alive; [by rewrite /alive He| |by rewrite He].
    intros _. apply wp_ret. rewrite /add_panic. tauto. }
  destruct (ents_is_alive (w_ents w) c) as [[]|] eqn:Hc; last first.
  { rewrite /add_component_with_data. apply wp_bind, wp_is_alive_true; [done|].
    apply wp_bind, wp_is_alive; [by rewrite /alive Hc|by rewrite Hc|].
    intros _. rewrite /add_panic. tauto. }
  { rewrite /add_component_with_data. apply wp_bind, wp_is_alive_true; [done|].
    apply wp_bind, wp_is_alive; [by rewrite /alive Hc| |by rewrite Hc].
    intros _. apply wp_ret. rewrite /add_panic. tauto. }
  destruct (meta_at w (uindex e)) as [em|] eqn:Hem; last first.
  { rewrite /add_component_with_data. apply wp_bind, wp_is_alive_true; [done|].
    apply wp_bind, wp_is_alive_true; [done|]. apply wp_bind, wp_get_entity_meta; [done|]. rewrite Hem.
    apply wp_bind. rewrite /wp /unwrap /panic /=. right. split; [done|]. rewrite /add_panic. tauto. }
  destruct (winv_meta_row _ _ Hw e em He Hem) as (rs & m & Hrs & Hr).
  assert (rowof R e m) as Hrow by (eexists _, _, _; done).
  eapply wp_mono; [eapply (add_spec w R _ _ rs e m c v); try done| |].
  - intros cm Hcm. rewrite (Hv cm) //.
  - intros [] w' ev (-> & Hk & Hlen & Hmc & R' & cm & Hcm & Hw' & HR'). split; [done|]. right.
    destruct Hlen as (L & HL & HdL). do 2 (split; [done|]). split; [by exists L, m|].
    exists m, R', cm. split_and!; try done; [by apply Hv|].
    intros e0 m0. rewrite HR' (Hv cm) // firstn_all. done.
  - intros r w' ev (-> & [(-> & -> & Hm)|(-> & Hcm & Hm & Hw' & Hx & Hids)]); (split; [done|]).
    + left. split; [done|]. right. right. split_and!; [done..|]. by exists m.
    + right. split_and!; try done. by exists m.
Qed.

Definition remove_done (w : world) (R : list (list row)) (e c : ecsid) (w' : world) (ev : list event) : Prop :=
  alive (w_ents w) c ∧ keeps w w' ∧ moved_to w R e (λ m d, d ≠ c ∧ is_Some (m !! d)) w' ∧
  ∃ m R' cm v, rowof R e m ∧ m !! c = Some v ∧ comp_of w c = Some cm ∧ ev = drop_event (cm_drop cm) v ∧
    winv w' R' ∧ rows_set R R' e (delete c m).
Definition remove_panic (w : world) (R : list (list row)) (e c : ecsid) (r : reason) (w' : world) : Prop :=
  w' = w ∧ ((r = RNoGeneration ∧ (oob w e ∨ oob w c)) ∨
            (r = RUnwrap ∧ alive (w_ents w) e ∧ alive (w_ents w) c ∧ meta_at w (uindex e) = None) ∨
            (r = RAssert ∧ alive (w_ents w) c ∧ ∃ m, rowof R e m ∧ m !! c = None)).
Lemma remove_all w R e c :
  winv w R → room 1 w →
  wp (remove_component_dynamic e c) w
     (λ _ w' ev, (w' = w ∧ ev = [] ∧ (dead w e ∨ dead w c)) ∨ remove_done w R e c w' ev)
     (λ r w' ev, ev = [] ∧ remove_panic w R e c r w').
Proof.
  intros Hw Hroom. destruct (ents_is_alive (w_ents w) e) as [[]|] eqn:He; last first.
  { rewrite /remove_component_dynamic. apply wp_bind, wp_is_alive; [by rewrite /alive He|by rewrite He|].
    intros _. rewrite /remove_panic. tauto. }
  { rewrite /remove_component_dynamic. apply wp_bind, wp_is_alive; [by rewrite /alive He| |by rewrite He].
    intros _. apply wp_ret. rewrite /remove_panic. tauto. }
  destruct (ents_is_alive (w_ents w) c) as [[]|] eqn:Hc; last first.
  { rewrite /remove_component_dynamic. apply wp_bind, wp_is_alive_true; [done|].
    apply wp_bind, wp_is_alive; [by rewrite /alive Hc|by rewrite Hc|].
    intros _. rewrite /remove_panic. tauto. }
  { rewrite /remove_component_dynamic. apply wp_bind, wp_is_alive_true; [done|].
    apply wp_bind, wp_is_alive; [by rewrite /alive Hc| |by rewrite Hc].
    intros _. apply wp_ret. rewrite /remove_panic. tauto. }
  destruct (meta_at w (uindex e)) as [em|] eqn:Hem; last first.
  { rewrite /remove_component_dynamic. apply wp_bind, wp_is_alive_true; [done|].
    apply wp_bind, wp_is_alive_true; [done|]. apply wp_bind, wp_get_entity_meta; [done|]. rewrite Hem.
    apply wp_bind. rewrite /wp /unwrap /panic /=. right. split; [done|]. rewrite /remove_panic. tauto. }
  destruct (winv_meta_row _ _ Hw e em He Hem) as (rs & m & Hrs & Hr).
  assert (rowof R e m) as Hrow by (eexists _, _, _; done).
  eapply wp_mono; [eapply (remove_spec w R _ _ rs e m c); try done| |].
  - intros [] w' ev (Hk & Hlen & R' & cm & v & Hcm & Hmc & -> & Hw' & HR'). right.
    destruct Hlen as (L & HL & HdL). do 2 (split; [done|]). split; [by exists L, m|]. by exists m, R', cm, v.
  - intros r w' ev (-> & -> & -> & Hm). split; [done|].
    split; [done|]. right. right. split_and!; [done..|]. by exists m.
Qed.

(** ** The statically typed calls *)
Definition registers (w : world) (R : list (list row)) (t : ty) (c : ecsid) (w1 : world) (R1 : list (list row)) : Prop :=
  grow w w1 ∧ w_types w1 !! t = Some c ∧ (∀ t', t' ≠ t → w_types w1 !! t' = w_types w !! t') ∧
  (w_types w !! t ≠ None → w1 = w) ∧
  (w_types w !! t = None → alive (w_ents w1) c ∧ comp_of w1 c = Some (cm_from_generic t)) ∧
  id_wf c ∧ winv w1 R1 ∧ grow_rows w w1 R R1.
Definition no_ids_left (w : world) (R : list (list row)) (t : ty) (w1 : world) : Prop :=
  grow w w1 ∧ w_types w1 = w_types w ∧ winv w1 R ∧ w_types w !! t = None.
Lemma register_all w R t : winv w R → room 0 w → ty_wf t →
  wp (get_or_create_type t) w
     (λ c w' ev, ev = [] ∧ ∃ R', registers w R t c w' R')
     (λ r w' ev, r = ROutOfIds ∧ ev = [] ∧ no_ids_left w R t w').
Proof.
  intros Hw Hr Ht. eapply wp_mono; [by apply (get_or_create_spec w R t)| |].
  - intros c w' ev (-> & H1 & H2 & H3 & H4 & H5 & H6 & R' & H7 & H8). split; [done|]. exists R'. done.
  - intros r w' ev (-> & -> & H1 & H2 & H3 & H4). done.
Qed.
Lemma room_le n n' w : n' ≤ n → room n w → room n' w.
Proof. rewrite /room. lia. Qed.
Lemma grow_room1 w w' : grow w w' → room 1 w → room 1 w'.
Proof. intros H. pose proof (gr_len _ _ H). rewrite /room. assert (2 <= u32_max)%N by done. lia. Qed.
Lemma registers_size w R t c w1 R1 cm : registers w R t c w1 R1 →
  alive (w_ents w1) c → comp_of w1 c = Some cm → cm = cm_from_generic t.
Proof. intros (_ & Ht & _ & _ & _ & _ & Hw1 & _). by eapply type_comp. Qed.

Lemma add_typed w R e t v : winv w R → room 1 w → ty_wf t → length v = ty_size t →
  wp (add_component e t v) w
     (λ _ w' ev, ev = [] ∧ alive (w_ents w) e ∧ ∃ w1 R1 c, registers w R t c w1 R1 ∧
        ((w' = w1 ∧ dead w1 c) ∨ add_done w1 R1 e c v w'))
     (λ r w' ev,
        (ev = [EvDrop (DropOf t) v] ∧
          ((w' = w ∧ ((r = RNoGeneration ∧ oob w e) ∨ (r = RAssert ∧ dead w e))) ∨
           (alive (w_ents w) e ∧ r = ROutOfIds ∧ no_ids_left w R t w'))) ∨
        (ev = [] ∧ alive (w_ents w) e ∧ ∃ w1 R1 c, registers w R t c w1 R1 ∧ add_panic w1 R1 e c r w')).
Proof.
  intros Hw Hroom Ht Hv. rewrite /add_component. apply wp_bind. eapply wp_on_unwind; [done|]. apply wp_bind, wp_is_alive.
  3:{ intros E. left. tauto. }
  2:{ intros E. apply wp_bind, wp_massert; [done|]. left. tauto. }
  intros He. apply wp_bind, wp_massert; [|done]. intros _.
  eapply wp_mono; [apply (register_all w R t); [done|by eapply room_le; [|done]; lia|done]| |].
  2:{ intros r w' ev (-> & -> & H). left. tauto. }
  intros c w1 ev (-> & R1 & Hreg). pose proof Hreg as (Hg & _ & _ & _ & _ & _ & Hw1 & _).
  eapply wp_mono; [apply (add_all w1 R1 e c v); [done|by eapply grow_room1| ]| |].
  - intros cm Hal Hcm. rewrite (registers_size _ _ _ _ _ _ _ Hreg Hal Hcm). done.
  - intros [] w' ev (-> & H). split_and!; [done..|]. exists w1, R1, c. split; [done|].
    destruct H as [(-> & [H|H])|H]; [|by left|by right].
    exfalso. apply (gr_alive _ _ Hg) in He. rewrite /alive in He. congruence.
  - intros r w' ev (-> & H). right. split; [done|]. split; [done|]. by exists w1, R1, c.
Qed.
Lemma remove_typed w R e t : winv w R → room 1 w → ty_wf t →
  wp (remove_component e t) w
     (λ _ w' ev, alive (w_ents w) e ∧ ∃ w1 R1 c, registers w R t c w1 R1 ∧
        ((w' = w1 ∧ ev = [] ∧ dead w1 c) ∨ remove_done w1 R1 e c w' ev))
     (λ r w' ev, ev = [] ∧
        ((w' = w ∧ ((r = RNoGeneration ∧ oob w e) ∨ (r = RAssert ∧ dead w e))) ∨
         (alive (w_ents w) e ∧
           ((r = ROutOfIds ∧ no_ids_left w R t w') ∨
            ∃ w1 R1 c, registers w R t c w1 R1 ∧ remove_panic w1 R1 e c r w')))).
Proof.
  intros Hw Hroom Ht. rewrite /remove_component. apply wp_bind, wp_is_alive.
  3:{ intros E. tauto. }
  2:{ intros E. apply wp_bind, wp_massert; [done|]. tauto. }
  intros He. apply wp_bind, wp_massert; [|done]. intros _. apply wp_bind.
  eapply wp_mono; [apply (register_all w R t); [done|by eapply room_le; [|done]; lia|done]| |].
  2:{ intros r w' ev (-> & -> & H). tauto. }
  intros c w1 ev (-> & R1 & Hreg). pose proof Hreg as (Hg & _ & _ & _ & _ & _ & Hw1 & _).
  eapply wp_mono; [apply (remove_all w1 R1 e c); [done|by eapply grow_room1]| |].
  - intros [] w' ev H. split_and!; [done..|]. exists w1, R1, c. split; [done|].
    destruct H as [(-> & -> & [H|H])|H]; [|by left|by right].
    exfalso. apply (gr_alive _ _ Hg) in He. rewrite /alive in He. congruence.
  - intros r w' ev (-> & H). split; [done|]. right. split; [done|]. right. by exists w1, R1, c.
Qed.
(** [add_component_dynamic] adds a component without data. *)
Lemma add_dynamic w R e c : winv w R → room 1 w →
  wp (add_component_dynamic e c) w
     (λ _ w' ev, ev = [] ∧ add_done w R e c [] w')
     (λ r w' ev, ev = [] ∧
        ((w' = w ∧ ((r = RNoGeneration ∧ (oob w e ∨ oob w c)) ∨ (r = RAssert ∧ (dead w e ∨ dead w c)) ∨
            (r = RUnwrap ∧ alive (w_ents w) c ∧ comp_of w c = None) ∨
            (r = RAssert ∧ alive (w_ents w) c ∧ ∃ cm, comp_of w c = Some cm ∧ cm_size cm ≠ 0))) ∨
         add_panic w R e c r w')).
Proof.
  intros Hw Hroom. rewrite /add_component_dynamic. apply wp_bind, wp_is_alive.
  3:{ intros E. tauto. }
  2:{ intros E. apply wp_bind, wp_massert; [done|]. tauto. }
  intros He. apply wp_bind, wp_massert; [|done]. intros _. apply wp_bind, wp_is_alive.
  3:{ intros E. tauto. }
  2:{ intros E. apply wp_bind, wp_massert; [done|]. tauto. }
  intros Hc. apply wp_bind, wp_massert; [|done]. intros _. apply wp_bind, wp_get_entity_meta; [done|].
  destruct (meta_at w (uindex c)) as [em|] eqn:Hem; last first.
  { apply wp_bind. rewrite /wp /unwrap /panic /=. right. split; [done|]. left. split; [done|].
    right. right. left. rewrite /comp_of Hem. done. }
  apply wp_bind, (wp_unwrap_some _ em); [done|].
  assert (comp_of w c = Some (em_comp em)) as Hcm by by rewrite /comp_of Hem.
  apply wp_bind, wp_massert.
  2:{ intros H%bool_decide_eq_false. split; [done|]. left. split; [done|]. right. right. right. split_and!; [done..|]. eauto. }
  intros H0%bool_decide_eq_true.
  eapply wp_mono; [apply (add_all w R e c []); [done..|]| |].
  - intros cm _ Hcm'. rewrite Hcm in Hcm'. injection Hcm' as <-. done.
  - intros [] w' ev (-> & H). split_and!; [done..|].
    destruct H as [(_ & [H|H])|H]; [rewrite /alive in He; congruence|rewrite /alive in Hc; congruence|done].
  - intros r w' ev (-> & H). tauto.
Qed.

(** ** [OWrite] *)
Definition write_done (w : world) (R : list (list row)) (e c : ecsid) (v : value) (w' : world) : Prop :=
  keeps w w' ∧ w_meta w' = w_meta w ∧ w_locks w' = w_locks w ∧ w_lock_lookup w' = w_lock_lookup w ∧ arch_ids w' = arch_ids w ∧
  ∃ m v0 R', rowof R e m ∧ m !! c = Some v0 ∧ length v0 = length v ∧ winv w' R' ∧ rows_set R R' e (<[c := v]> m).
Lemma write_all w R e c v : winv w R → value_fits w c v →
  wp (step (OWrite e c v)) w
     (λ r w' ev, ev = [] ∧
        ((r = RBool false ∧ w' = w ∧ (dead w e ∨ dead w c ∨ meta_at w (uindex e) = None)) ∨
         (r = RBool true ∧ write_done w R e c v w')))
     (λ r w' ev, ev = [] ∧ w' = w ∧
        ((r = RNoGeneration ∧ (oob w e ∨ oob w c)) ∨ (r = RIndex ∧ alive (w_ents w) c ∧ ∃ m, rowof R e m ∧ m !! c = None))).
Proof.
  intros Hw Hv. cbn [step]. pose proof (get_mut_cases w R Hw e c) as H. apply wp_bind. rewrite {1}/wp.
  destruct (get_component_mut e c w) as [[l|] w' ev|r w' ev| |]; [| | |done..].
  - destruct H as (-> & -> & k & i & rs & m & v0 & a & j & u & Hrs & Hr & Hm & Ha & Hj & ->).
    assert (holds w e c v0) as Hh. { apply (holds_row _ _ Hw). exists m. split; [by eexists _, _, _|done]. }
    destruct (holds_size _ _ Hw _ _ _ Hh) as (Hc & cm & Hcm & Hlen0).
    assert (length v = cm_size cm) as Hlen by by eapply value_fits_comp.
    destruct (column_value _ _ Hw _ _ _ _ _ _ _ _ _ Hrs Hr Ha Hj) as (v1 & cm' & Hm' & _ & _ & _ & _ & Hlen1 & _).
    rewrite Hm in Hm'. injection Hm' as <-.
    destruct (write_row _ _ Hw k i rs e m c v0 v a j u) as (a' & Hrun & Hids & Hw' & Hk); try done; [congruence|].
    cbn zeta in *. apply wp_bind. rewrite /wp Hrun. split; [done|]. right. split; [done|].
    split_and!; try done; [by eapply arch_ids_insert|]. exists m, v0. eexists. split_and!; [by eexists _, _, _|done|congruence|done|].
    exact (write_rows _ _ Hw _ _ _ _ _ _ Hrs Hr).
  - destruct H as (-> & -> & H). apply wp_ret. split; [done|]. by left.
  - destruct H as (-> & -> & H). right. split_and!; [done..|]. tauto.
Qed.

(** ** The invariant over single calls *)
Definition WOk (w : world) : Prop := WInv w ∧ room 0 w.
(** A call adds at most one archetype (and the empty one if there is none). *)
Definition WOk1 (w w' : world) : Prop := WOk w' ∧ length (w_archs w') ≤ S (Nat.max 1 (length (w_archs w))).
Lemma winv_ok w R w' : winv w' R → room 1 w → length (w_archs w') ≤ S (Nat.max 1 (length (w_archs w))) → WOk1 w w'.
Proof. intros Hw Hr Hle. split; [|done]. split; [by exists R|]. rewrite /room in Hr |- *. assert (2 <= u32_max)%N by done. lia. Qed.
Lemma registers_ok w R t c w1 R1 : registers w R t c w1 R1 → length (w_archs w1) ≤ Nat.max 1 (length (w_archs w)) ∧ winv w1 R1.
Proof. intros (Hg & _ & _ & _ & _ & _ & Hw & _). split; [apply Hg|done]. Qed.
Lemma add_panic_ok w0 w R e c r w' : winv w R → room 1 w0 → length (w_archs w) ≤ Nat.max 1 (length (w_archs w0)) →
  add_panic w R e c r w' → WOk1 w0 w'.
Proof.
  intros Hw Hroom Hle [(-> & _)|(_ & _ & _ & Hw' & _ & Hids & _)]; eapply winv_ok; try done; [lia|].
  rewrite -(arch_ids_length w') Hids arch_ids_length. lia.
Qed.

Lemma step_inv1 o w : WInv w → op_legal o w → op_tame o w →
  wp (step o) w (λ _ w' _, WOk1 w w') (λ r w' _, r ≠ RColumnLength → WOk1 w w').
Proof.
  intros [R Hw] Hleg [Hroom Htame]. fold (room 1 w) in Hroom.
  assert (WOk1 w w) as Hok by (eapply winv_ok; [done..|lia]).
  destruct o as [cap meta bs fin|e|e t v|e t|e c|e c v|e c|t|e c v|e t|e]; cbn [op_legal] in Hleg.
  - destruct Hleg as [Hlay Hleg]. cbn [step]. apply wp_bind.
    eapply wp_mono; [by apply (spawn_program_spec w R cap meta bs fin)| |].
    + intros e w' ev (-> & Hsg & R' & D & Hw' & _ & Hx). apply wp_ret. eapply winv_ok; [done..|].
      case_decide; [destruct Hx as (_ & _ & ?)|destruct Hx as (_ & _ & _ & ? & _)]; lia.
    + intros r w' ev [(-> & -> & Hg & _ & Hw')|[(-> & _)|(e & R' & Hsg & Hw' & Hx)]] Hr; [|done|].
      { eapply winv_ok; [done..|]. pose proof (gr_len _ _ Hg). lia. }
      eapply winv_ok; [done..|].
      destruct Hx as [(_ & _ & _ & _ & ?)|[(_ & (_ & _ & ?) & _)|(_ & _ & _ & D & _ & _ & _ & _ & ? & _)]]; lia.
  - cbn [step]. apply wp_bind. eapply wp_mono; [by apply (despawn_spec w R e)| |].
    + intros b w' ev Hx. apply wp_ret. destruct Hx as [(_ & _ & -> & _)|(_ & _ & Hk & R' & m & ids & Hw' & _)]; [done|].
      eapply winv_ok; [done..|]. rewrite -(arch_ids_length w') (dk_ids _ _ _ Hk) arch_ids_length. lia.
    + by intros r w' ev (-> & _).
  - cbn [step]. destruct Hleg as (He & Ht & Hv). apply wp_bind. eapply wp_mono; [by apply (add_typed w R e t v)| |].
    + intros [] w' ev (-> & _ & w1 & R1 & c & Hreg & Hx). apply wp_ret.
      destruct (registers_ok _ _ _ _ _ _ Hreg) as [Hl Hw1].
      destruct Hx as [(-> & _)|(_ & _ & Hl2%moved_to_len & m & R' & cm & _ & _ & _ & _ & Hw' & _)]; (eapply winv_ok; [done..|lia]).
    + intros r w' ev Hx _. destruct Hx as [(_ & [(-> & _)|(_ & _ & Hg & _ & Hw' & _)])|(_ & _ & w1 & R1 & c & Hreg & Hp)]; [done| |].
      * eapply winv_ok; [done..|]. pose proof (gr_len _ _ Hg). lia.
      * destruct (registers_ok _ _ _ _ _ _ Hreg) as [Hl Hw1]. by eapply (add_panic_ok w w1).
  - cbn [step]. destruct Hleg as (He & Ht). apply wp_bind. eapply wp_mono; [by apply (remove_typed w R e t)| |].
    + intros [] w' ev (_ & w1 & R1 & c & Hreg & Hx). apply wp_ret.
      destruct (registers_ok _ _ _ _ _ _ Hreg) as [Hl Hw1].
      destruct Hx as [(-> & _)|(_ & _ & Hl2%moved_to_len & m & R' & cm & v & _ & _ & _ & _ & Hw' & _)]; (eapply winv_ok; [done..|lia]).
    + intros r w' ev (-> & Hx) _. destruct Hx as [(-> & _)|(_ & [(_ & Hg & _ & Hw' & _)|(w1 & R1 & c & Hreg & Hp)])]; [done| |].
      * eapply winv_ok; [done..|]. pose proof (gr_len _ _ Hg). lia.
      * destruct (registers_ok _ _ _ _ _ _ Hreg) as [Hl Hw1]. destruct Hp as (-> & _). eapply winv_ok; [done..|lia].
  - cbn [step]. apply wp_bind. eapply wp_mono; [by apply (add_dynamic w R e c)| |].
    + intros [] w' ev (-> & _ & _ & Hl2%moved_to_len & m & R' & cm & _ & _ & _ & _ & Hw' & _). apply wp_ret. eapply winv_ok; [done..|lia].
    + intros r w' ev (-> & [(-> & _)|Hp]) _; [done|]. eapply (add_panic_ok w w); [done..|lia|done].
  - cbn [step]. destruct Hleg as (He & Hc & Hv). apply wp_bind. eapply wp_mono; [apply (add_all w R e c v); [done..|]| |].
    + intros cm Hal Hcm. symmetry. by eapply value_fits_comp.
    + intros [] w' ev (-> & [(-> & _)|(_ & _ & Hl2%moved_to_len & m & R' & cm & _ & _ & _ & _ & Hw' & _)]); apply wp_ret; [done|]. eapply winv_ok; [done..|lia].
    + intros r w' ev (-> & Hp) _. eapply (add_panic_ok w w); [done..|lia|done].
  - cbn [step]. apply wp_bind. eapply wp_mono; [by apply (remove_all w R e c)| |].
    + intros [] w' ev [(-> & _)|(_ & _ & Hl2%moved_to_len & m & R' & cm & v & _ & _ & _ & _ & Hw' & _)]; apply wp_ret; [done|]. eapply winv_ok; [done..|lia].
    + intros r w' ev (-> & -> & _) _. done.
  - cbn [step]. apply wp_bind. eapply wp_mono; [apply (register_all w R t); [done|by eapply room_le; [|done]; lia|done]| |].
    + intros c w' ev (-> & R' & Hreg). apply wp_ret. destruct (registers_ok _ _ _ _ _ _ Hreg) as [Hl Hw']. eapply winv_ok; [done..|lia].
    + intros r w' ev (_ & _ & Hg & _ & Hw' & _) _. eapply winv_ok; [done..|]. pose proof (gr_len _ _ Hg). lia.
  - destruct Hleg as (_ & _ & Hv). eapply wp_mono; [by apply (write_all w R e c v)| |].
    + intros r w' ev (-> & [(_ & -> & _)|(_ & _ & _ & _ & _ & Hids & m & v0 & R' & _ & _ & _ & Hw' & _)]); [done|].
      eapply winv_ok; [done..|]. rewrite -(arch_ids_length w') Hids arch_ids_length. lia.
    + by intros r w' ev (_ & -> & _).
  - cbn [step]. apply wp_bind. rewrite {1}/wp. pose proof (has_cases w R Hw e t) as H.
    destruct (has_component e t w) as [b w' ev|r w' ev| |]; [| |done..].
    + destruct H as (-> & -> & _). by apply wp_ret.
    + destruct H as (-> & -> & _). by right.
  - cbn [step]. apply wp_bind. apply wp_is_alive; intros; [by apply wp_ret..|done].
Qed.
Lemma step_inv o w : WInv w → op_legal o w → op_tame o w →
  wp (step o) w (λ _ w' _, WOk w') (λ r w' _, r ≠ RColumnLength → WOk w').
Proof.
  intros Hw Hl Ht. eapply wp_mono; [by apply step_inv1| |].
  - intros a w' ev H. apply H.
  - intros r w' ev H Hr. by apply H.
Qed.
