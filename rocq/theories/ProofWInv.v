(** * The invariant of the world, and what the read-only operations do under it *)
From Verif Require Import ProofBase SpecSmall World History ProofEntities ProofBitset ProofArrayVec ProofUVec.
From Verif Require Export ProofSort.

(** A row: an entity with the values of its components. *)
Notation row := (ecsid * gmap ecsid value)%type.
(** The column of component [c]. *)
Definition col (c : ecsid) (rs : list row) : list value :=
  (λ r : row, default [] (r.2 !! c)) <$> rs.
(** The metadata recorded for slot [i]. *)
Definition meta_at (w : world) (i : nat) : option entity_meta := mjoin (w_meta w !! i).
Definition comp_of (w : world) (c : ecsid) : option component_meta := em_comp <$> meta_at w (uindex c).
Definition arch_ids (w : world) : list (list ecsid) := a_comp_ids <$> w_archs w.
(** [L'] is [L] with [c] added or taken away. *)
Definition toggle (c : ecsid) (L L' : list ecsid) : Prop :=
  ∀ d, d ∈ L' ↔ (d ≠ c ∧ d ∈ L) ∨ (d = c ∧ c ∉ L).

Record arch_shape (a : archetype) : Prop := {
  as_sorted : StronglySorted id_lt (a_comp_ids a);
  as_storages : (a_storages a).*1 = a_comp_ids a;
  as_lookup : ∀ c i, a_lookup a !! c = Some i ↔ a_comp_ids a !! i = Some c;
  as_cache : rc_inv (a_cache a)
}.
Record arch_rows (cmo : ecsid → option component_meta) (a : archetype) (rs : list row) : Prop := {
  ar_ents : a_entities a = rs.*1;
  ar_cols : ∀ c v, (c, v) ∈ a_storages a →
    ∃ cm, cmo c = Some cm ∧ uv_ti v = cm_type_info cm ∧ uv_rep v (col c rs);
  ar_dom : ∀ r c, r ∈ rs → is_Some (r.2 !! c) ↔ c ∈ a_comp_ids a
}.
Definition cache_ok (L : list (list ecsid)) (a : archetype) : Prop :=
  ∀ c j, rc_lookup (a_cache a) !! c = Some j → ∃ L', L !! j = Some L' ∧ toggle c (a_comp_ids a) L'.

(** A buffer of the builder: [cap] bytes. *)
Definition buffer_ok (p : ptr) (cap : nat) : Prop :=
  (cap = 0 ∧ p = Dangling) ∨
  (cap ≠ 0 ∧ layout_from_size_align cap 1 = Some (Layout cap 1) ∧ ∃ m, p = Heap 1 m ∧ length m = cap).

(** A bit vector over [n] archetypes. *)
Definition bv_ok (n : nat) (b : bitvec) : Prop := bv_wf b ∧ bv_len b ≤ n.

Record winv (w : world) (R : list (list row)) : Prop := {
  wi_ents : ents_wf (w_ents w);
  wi_len : length R = length (w_archs w);
  wi_shape : ∀ k a, w_archs w !! k = Some a → arch_shape a;
  wi_rows : ∀ k a rs, w_archs w !! k = Some a → R !! k = Some rs → arch_rows (comp_of w) a rs;
  wi_cache : ∀ k a, w_archs w !! k = Some a → cache_ok (arch_ids w) a;
  wi_comps : ∀ k L c, arch_ids w !! k = Some L → c ∈ L →
    alive (w_ents w) c ∧ is_Some (comp_of w c) ∧ is_Some (w_lock_lookup w !! c);
  wi_distinct : ∀ k k' L, arch_ids w !! k = Some L → arch_ids w !! k' = Some L → k = k';
  wi_zero : ∀ L, arch_ids w !! 0 = Some L → L = [];
  wi_bitset : Forall (bv_ok (length (w_archs w))) (w_bitset w);
  wi_bits : ∀ i k, bs_bit (w_bitset w) i k = true ↔
    ∃ L c, arch_ids w !! k = Some L ∧ c ∈ L ∧ uindex c = i;
  wi_entbits : bv_wf (w_entbits w) ∧ bv_len (w_entbits w) = length (w_archs w) ∧
    ∀ k, k < length (w_archs w) → bit_of (bv_data (w_entbits w)) k = true;
  wi_row : ∀ k i rs e m, R !! k = Some rs → rs !! i = Some (e, m) →
    alive (w_ents w) e ∧ em_inst <$> meta_at w (uindex e) = Some (InstMeta k i);
  wi_meta : ∀ i em, meta_at w i = Some em →
    ∃ rs e m, R !! im_arch (em_inst em) = Some rs ∧ rs !! im_index (em_inst em) = Some (e, m) ∧ uindex e = i;
  wi_layout : ∀ i em, meta_at w i = Some em → layout_wf (cm_layout (em_comp em));
  wi_locks : ∀ c i, w_lock_lookup w !! c = Some i → i < length (w_locks w);
  wi_locks_inj : ∀ c c' i, w_lock_lookup w !! c = Some i → w_lock_lookup w !! c' = Some i → c = c';
  wi_types : ∀ t c, w_types w !! t = Some c → ty_wf t ∧ id_wf c ∧
    ∃ b g, generations (w_ents w) !! uindex c = Some (b, g) ∧
      if b : bool then g = id_gen c → comp_of w c = Some (cm_from_generic t)
      else wrap32 (g + 1) ≠ id_gen c;
  wi_types_inj : ∀ t t' c, w_types w !! t = Some c → w_types w !! t' = Some c → t = t';
  wi_reuse : match w_reuse w with
             | Some (ids, p, cap) => ids = [] ∧ cap ≠ 0 ∧ buffer_ok p cap
             | None => True
             end
}.
Definition WInv (w : world) : Prop := ∃ R, winv w R.

(** Room for [n] more archetypes below the u32 limit of the search. *)
Definition room (n : nat) (w : world) : Prop := (N.of_nat (length (w_archs w) + n) <= u32_max)%N.

(** ** Small facts *)
Lemma bv_ok_wf n bs : Forall (bv_ok n) bs → Forall bv_wf bs.
Proof. intros H. eapply Forall_impl; [exact H|]. by intros b [? _]. Qed.
Lemma col_length c rs : length (col c rs) = length rs.
Proof. by rewrite /col fmap_length. Qed.
Lemma col_lookup c rs i : col c rs !! i = (λ r : row, default [] (r.2 !! c)) <$> rs !! i.
Proof. by rewrite /col list_lookup_fmap. Qed.
Lemma col_app c rs1 rs2 : col c (rs1 ++ rs2) = col c rs1 ++ col c rs2.
Proof. apply fmap_app. Qed.
Lemma col_swap_remove c i rs rs' : vec_swap_remove i rs = Some rs' →
  vec_swap_remove i (col c rs) = Some (col c rs').
Proof. apply vec_swap_remove_fmap. Qed.
Lemma arch_ids_lookup w k L : arch_ids w !! k = Some L ↔ ∃ a, w_archs w !! k = Some a ∧ a_comp_ids a = L.
Proof. rewrite /arch_ids list_lookup_fmap fmap_Some. naive_solver. Qed.
Lemma arch_ids_length w : length (arch_ids w) = length (w_archs w).
Proof. by rewrite /arch_ids fmap_length. Qed.

Section facts.
  Context (w : world) (R : list (list row)) (Hw : winv w R).
  Local Set Default Proof Using "Hw".

  Lemma winv_sorted k L : arch_ids w !! k = Some L → StronglySorted id_lt L.
  Proof. intros (a & Ha & <-)%arch_ids_lookup. by eapply as_sorted, wi_shape. Qed.
  Lemma winv_distinct_set k k' L L' : arch_ids w !! k = Some L → arch_ids w !! k' = Some L' →
    (∀ c, c ∈ L ↔ c ∈ L') → k = k'.
  Proof.
    intros H1 H2 Heq. eapply wi_distinct; [done|exact H1|]. rewrite H2. f_equal.
    apply sorted_ext; [by eapply winv_sorted..|]. naive_solver.
  Qed.
  Lemma winv_rows_len k : is_Some (R !! k) ↔ is_Some (w_archs w !! k).
  Proof. rewrite !lookup_lt_is_Some (wi_len _ _ Hw). done. Qed.
  Lemma winv_get_rows k a : w_archs w !! k = Some a → ∃ rs, R !! k = Some rs ∧ arch_rows (comp_of w) a rs.
  Proof.
    intros Ha. destruct (proj2 (winv_rows_len k)) as [rs Hrs]; [by eexists|]. exists rs. split; [done|].
    by eapply wi_rows.
  Qed.
  Lemma winv_row_unique k i rs e m k' i' rs' m' :
    R !! k = Some rs → rs !! i = Some (e, m) → R !! k' = Some rs' → rs' !! i' = Some (e, m') →
    k = k' ∧ i = i' ∧ m = m'.
  Proof.
    intros H1 H2 H3 H4. destruct (wi_row _ _ Hw _ _ _ _ _ H1 H2) as [_ E1].
    destruct (wi_row _ _ Hw _ _ _ _ _ H3 H4) as [_ E2]. rewrite E1 in E2. simplify_eq. done.
  Qed.
  Lemma winv_row_index k i rs e m k' i' rs' e' m' :
    R !! k = Some rs → rs !! i = Some (e, m) → R !! k' = Some rs' → rs' !! i' = Some (e', m') →
    uindex e = uindex e' → e = e'.
  Proof.
    intros H1 H2 H3 H4. destruct (wi_row _ _ Hw _ _ _ _ _ H1 H2) as [A1 _].
    destruct (wi_row _ _ Hw _ _ _ _ _ H3 H4) as [A2 _]. by eapply alive_inj.
  Qed.
  (** The metadata of a live entity leads to its own row. *)
  Lemma winv_meta_row e em : alive (w_ents w) e → meta_at w (uindex e) = Some em →
    ∃ rs m, R !! im_arch (em_inst em) = Some rs ∧ rs !! im_index (em_inst em) = Some (e, m).
  Proof.
    intros He Hem. destruct (wi_meta _ _ Hw _ _ Hem) as (rs & e' & m & H1 & H2 & Hi).
    destruct (wi_row _ _ Hw _ _ _ _ _ H1 H2) as [He' _].
    rewrite (alive_inj _ _ _ He He') //. eauto.
  Qed.
  (** A slot that is not in use has no metadata. *)
  Lemma winv_free_slot i : (∀ e, uindex e = i → ¬ alive (w_ents w) e) → meta_at w i = None.
  Proof.
    intros Hi. destruct (meta_at w i) as [em|] eqn:E; [|done]. exfalso.
    destruct (wi_meta _ _ Hw _ _ E) as (rs & e & m & H1 & H2 & Hu).
    apply (Hi e Hu). by eapply wi_row.
  Qed.
  Lemma winv_storage k a i c : w_archs w !! k = Some a → a_comp_ids a !! i = Some c →
    ∃ v, a_storages a !! i = Some (c, v).
  Proof.
    intros Ha Hc. pose proof (as_storages _ (wi_shape _ _ Hw _ _ Ha)) as Hss. rewrite -Hss in Hc.
    rewrite list_lookup_fmap in Hc. destruct (a_storages a !! i) as [[c' v]|]; simplify_eq/=. eauto.
  Qed.
End facts.
Local Set Default Proof Using "Type".

(** ** Reading liveness and metadata *)
Lemma is_alive_alive w e : alive (w_ents w) e → is_alive e w = Done true w [].
Proof. rewrite /alive /is_alive /bind /gets /=. by intros ->. Qed.
Lemma is_alive_cases w e :
  match is_alive e w with
  | Done b w' ev => w' = w ∧ ev = [] ∧ (b = true ↔ alive (w_ents w) e) ∧ ents_is_alive (w_ents w) e = Some b
  | Panicked r w' ev => w' = w ∧ ev = [] ∧ r = RNoGeneration ∧ ents_is_alive (w_ents w) e = None
  | _ => False
  end.
Proof.
  rewrite /is_alive /bind /gets /= /alive. destruct (ents_is_alive (w_ents w) e) as [[]|] eqn:E; simpl;
    split_and!; naive_solver.
Qed.
Lemma wp_is_alive w e (Q : post world bool) (P : ppost world) :
  (alive (w_ents w) e → Q true w []) →
  (ents_is_alive (w_ents w) e = Some false → Q false w []) →
  (ents_is_alive (w_ents w) e = None → P RNoGeneration w []) →
  wp (is_alive e) w Q P.
Proof.
  intros H1 H2 H3. rewrite /wp. pose proof (is_alive_cases w e) as H. destruct (is_alive e w) as [b w' ev|r w' ev| |]; [| |done..].
  - destruct H as (-> & -> & Hb & E). destruct b; [apply H1, Hb; done|by apply H2].
  - destruct H as (-> & -> & -> & E). right. by apply H3.
Qed.
Lemma wp_is_alive_true w e (Q : post world bool) (P : ppost world) :
  alive (w_ents w) e → Q true w [] → wp (is_alive e) w Q P.
Proof. intros H HQ. apply wp_is_alive; [done|by rewrite H..]. Qed.
Lemma get_entity_meta_alive w e : alive (w_ents w) e →
  get_entity_meta e w = Done (meta_at w (uindex e)) w [].
Proof. intros H. rewrite /get_entity_meta (bind_done_nil _ _ _ _ _ (is_alive_alive _ _ H)) //. Qed.
Lemma wp_get_entity_meta w e (Q : post world (option entity_meta)) (P : ppost world) :
  alive (w_ents w) e → Q (meta_at w (uindex e)) w [] → wp (get_entity_meta e) w Q P.
Proof. intros H HQ. by rewrite /wp (get_entity_meta_alive _ _ H). Qed.
Lemma get_entity_meta_cases w e :
  match get_entity_meta e w with
  | Done o w' ev => w' = w ∧ ev = [] ∧ ∃ b, ents_is_alive (w_ents w) e = Some b ∧ o = if b then meta_at w (uindex e) else None
  | Panicked r w' ev => w' = w ∧ ev = [] ∧ r = RNoGeneration ∧ ents_is_alive (w_ents w) e = None
  | _ => False
  end.
Proof.
  rewrite /get_entity_meta /bind. pose proof (is_alive_cases w e) as H.
  destruct (is_alive e w) as [b w' ev|r w' ev| |]; [| |done..].
  - destruct H as (-> & -> & Hb & E). destruct b; simpl; split_and!; eauto.
  - done.
Qed.
Lemma wp_get_arch w k a (Q : post world archetype) (P : ppost world) :
  w_archs w !! k = Some a → Q a w [] → wp (get_arch k) w Q P.
Proof. intros Ha HQ. by rewrite /wp /get_arch /bind /gets /= Ha. Qed.
Lemma get_arch_done w k a : w_archs w !! k = Some a → get_arch k w = Done a w [].
Proof. intros Ha. by rewrite /get_arch /bind /gets /= Ha. Qed.

(** ** Searching for an archetype *)
Lemma stream_length base ws : length (stream base ws) ≤ usize_bits * length ws.
Proof.
  revert base. induction ws as [|x ws IH]; intros base; cbn [stream]; [simpl; lia|].
  rewrite app_length. specialize (IH (base + usize_bits)).
  assert (length (word_bits base usize_bits x) ≤ usize_bits) as Hx.
  { rewrite /word_bits. etrans; [apply filter_length|]. by rewrite seq_length. }
  cbn [length]. lia.
Qed.
Lemma future_new_length iters bl :
  length (future (bi_new iters bl)) ≤ usize_bits * match iters with [] => 0 | (ws, _) :: _ => length ws end.
Proof.
  rewrite /future. etrans; [apply filter_length|]. cbn [bi_new bi_index bi_remaining bi_bits bi_iters].
  rewrite app_length. assert (length (word_bits 0 0 0) = 0) as -> by done.
  etrans; [apply stream_length|]. destruct iters as [|[ws f] rest]; [simpl; lia|].
  cbn [combined]. pose proof (comb_length ws f rest). simpl. lia.
Qed.

Lemma find_sized_spec w n fuel it :
  bi_inv it → length (future it) < fuel → (∀ k, k ∈ future it → is_Some (w_archs w !! k)) →
  ∃ r, find_sized fuel it n w = Done r w [] ∧
    match r with
    | Some k => k ∈ future it ∧ ∃ a, w_archs w !! k = Some a ∧ length (a_comp_ids a) = n
    | None => ∀ k a, k ∈ future it → w_archs w !! k = Some a → length (a_comp_ids a) ≠ n
    end.
Proof.
  revert it. induction fuel as [|fuel IH]; intros it Hinv Hfuel Hr; [lia|]. cbn [find_sized].
  destruct (bi_next_spec it Hinv) as (it' & Hinv' & -> & Hf').
  destruct (future it) as [|k l] eqn:Hf; cbn [head].
  { exists None. split; [done|]. intros k a Hk. by apply elem_of_nil in Hk. }
  simpl in Hf'. destruct (Hr k) as [a Ha]; [left|].
  rewrite (bind_done_nil _ _ _ _ _ (get_arch_done _ _ _ Ha)). case_decide as Hn.
  - exists (Some k). split; [done|]. split; [left|]. by exists a.
  - destruct (IH it') as (r & Hrun & Hres); [done|rewrite Hf'; simpl in Hfuel; lia|rewrite Hf'; intros j Hj; apply Hr; by right|].
    exists r. split; [done|]. rewrite Hf' in Hres. destruct r as [k'|].
    + destruct Hres as [? ?]. split; [by right|done].
    + intros k' a' [->|Hk']%elem_of_cons Ha'; [by simplify_eq|]. by eapply Hres.
Qed.

Lemma min_bit_length_spec bs ids bl : (bl <= u32_max)%N →
  match min_bit_length bs ids bl with
  | Some bl' => (bl' <= u32_max)%N ∧ (∀ c, c ∈ ids → is_Some (bs !! uindex c)) ∧
      ∀ k, (k < bl')%N ↔ (k < bl)%N ∧ ∀ c b, c ∈ ids → bs !! uindex c = Some b → (k < N.of_nat (bv_len b))%N
  | None => ∃ c, c ∈ ids ∧ bs !! uindex c = None
  end.
Proof.
  revert bl. induction ids as [|c ids IH]; intros bl Hbl; cbn [min_bit_length].
  { split_and!; [done|by intros c Hc%elem_of_nil|]. intros k. split; [|naive_solver].
    intros Hk. split; [done|]. by intros c b Hc%elem_of_nil. }
  rewrite /bs_get_bitvec. destruct (bs !! uindex c) as [b|] eqn:Hb; [|exists c; split; [left|done]].
  set (bl1 := if (N.of_nat (bv_len b) <? bl)%N then wrap32 (N.of_nat (bv_len b)) else bl).
  assert (bl1 <= u32_max ∧ bl1 = N.min bl (N.of_nat (bv_len b)))%N as [Hbl1 Heq].
  { rewrite /bl1. destruct (N.ltb_spec (N.of_nat (bv_len b)) bl).
    - rewrite wrap32_small; [lia|]. rewrite /u32_max in Hbl. change u32_modulus with (2^32)%N in *. lia.
    - lia. }
  specialize (IH bl1 Hbl1). destruct (min_bit_length bs ids bl1) as [bl'|].
  - destruct IH as (H1 & H2 & H3). split_and!; [done| |].
    + intros d [->|Hd]%elem_of_cons; [eauto|by apply H2].
    + intros k. rewrite H3 Heq. split.
      * intros [Hk Hall]. split; [lia|]. intros d b' [->|Hd]%elem_of_cons Hb'; [simplify_eq; lia|by eapply Hall].
      * intros [Hk Hall]. split; [|intros d b' Hd; apply Hall; by right].
        apply N.min_glb_lt; [done|]. eapply Hall; [left|done].
  - destruct IH as (d & Hd & ?). exists d. split; [by right|done].
Qed.

Lemma bit_iters_spec bs ids : (∀ c, c ∈ ids → is_Some (bs !! uindex c)) →
  ∃ iters, bit_iters bs ids = Some iters ∧ length iters = length ids ∧
    ∀ ws f, (ws, f) ∈ iters ↔ ∃ c b, c ∈ ids ∧ bs !! uindex c = Some b ∧ ws = bv_data b ∧ f = identity_map.
Proof.
  induction ids as [|c ids IH]; intros Hall.
  { exists []. split_and!; [done|done|]. intros ws f. split; [by intros ?%elem_of_nil|]. by intros (? & ? & ?%elem_of_nil & _). }
  destruct IH as (iters & Hi & Hl & Hin); [intros d Hd; apply Hall; by right|].
  destruct (Hall c) as [b Hb]; [left|]. exists ((bv_data b, identity_map) :: iters). split_and!.
  - rewrite /bit_iters /= /bs_get_bitvec Hb /=. rewrite /bit_iters in Hi. by rewrite Hi.
  - simpl. by rewrite Hl.
  - intros ws f. rewrite elem_of_cons Hin. split.
    + intros [[= -> ->]|(d & b' & Hd & ?)]; [exists c, b; split; [left|done]|]. exists d, b'. split; [by right|done].
    + intros (d & b' & [->|Hd]%elem_of_cons & Hb' & -> & ->); [left; by simplify_eq|]. right. eauto 10.
Qed.

Lemma search_spec w R ids n : winv w R → room 0 w →
  (∀ c, c ∈ ids → alive (w_ents w) c) → ids ≠ [] →
  ∃ r, search ids n w = Done r w [] ∧
    match r with
    | Some k => ∃ L, arch_ids w !! k = Some L ∧ (∀ c, c ∈ ids → c ∈ L) ∧ length L = n
    | None => ∀ k L, arch_ids w !! k = Some L → (∀ c, c ∈ ids → c ∈ L) → length L ≠ n
    end.
Proof.
  intros Hw Hroom Hal Hne. rewrite /search (bind_done_nil _ _ w (w_bitset w) w eq_refl).
  pose proof (min_bit_length_spec (w_bitset w) ids u32_max ltac:(lia)) as Hm.
  (* an archetype containing all ids has its bit set in every vector *)
  assert (∀ k L c, arch_ids w !! k = Some L → c ∈ L → ∃ b, w_bitset w !! uindex c = Some b ∧ bit_of (bv_data b) k = true) as Hbit.
  { intros k L c HL Hc. assert (bs_bit (w_bitset w) (uindex c) k = true) as Hb by (apply (wi_bits _ _ Hw); eauto).
    rewrite /bs_bit in Hb. destruct (w_bitset w !! uindex c) as [b|]; [eauto|done]. }
  destruct (min_bit_length (w_bitset w) ids u32_max) as [bl|].
  2:{ destruct Hm as (c & Hc & Hb). exists None. split; [done|]. intros k L HL Hall.
      destruct (Hbit k L c HL (Hall _ Hc)) as (b & Hb' & _). congruence. }
  destruct Hm as (Hbl & Hbs & Hlt).
  destruct (bit_iters_spec (w_bitset w) ids Hbs) as (iters & -> & Hil & Hin).
  cbn [unwrap]. rewrite (bind_done_nil _ _ w iters w eq_refl).
  assert (iters ≠ []) as Hine. { destruct iters; [|done]. destruct ids; [done|]. done. }
  assert (iters_wf iters) as Hiwf.
  { intros ws f (c & b & _ & Hb & -> & ->)%Hin. rewrite /identity_map.
    pose proof (Forall_lookup_1 _ _ _ _ (wi_bitset _ _ Hw) Hb) as ((Hwd & _) & _). done. }
  (* membership in the iteration *)
  assert (∀ k, k ∈ future (bi_new iters bl) ↔ ∃ L, arch_ids w !! k = Some L ∧ ∀ c, c ∈ ids → c ∈ L) as Hfut.
  { intros k. rewrite elem_of_future_new //. split.
    - intros [Hk Hcb].
      assert (∀ c, c ∈ ids → bs_bit (w_bitset w) (uindex c) k = true) as Hbits.
      { intros c Hc. destruct (Hbs c Hc) as [b Hb]. destruct (Hcb (bv_data b) identity_map) as (x & Hx & Ht); [apply Hin; eauto 10|].
        rewrite /bs_bit Hb /bit_of Hx. done. }
      destruct ids as [|c0 ids0]; [done|].
      destruct (proj1 (wi_bits _ _ Hw _ _) (Hbits c0 ltac:(left))) as (L & c' & HL & _ & _).
      exists L. split; [done|]. intros c Hc.
      destruct (proj1 (wi_bits _ _ Hw _ _) (Hbits c Hc)) as (L' & c'' & HL' & Hc'' & Hu). rewrite HL in HL'. simplify_eq.
      rewrite (alive_inj _ _ _ (Hal c Hc) (proj1 (wi_comps _ _ Hw _ _ _ HL Hc''))) //.
    - intros (L & HL & Hall). assert (k < length (w_archs w)) as Hkl.
      { rewrite -arch_ids_length. by eapply lookup_lt_Some. }
      split.
      + apply Hlt. split; [rewrite /room in Hroom; lia|]. intros c b Hc Hb.
        destruct (Hbit k L c HL (Hall _ Hc)) as (b' & Hb' & Ht). rewrite Hb in Hb'. simplify_eq.
        pose proof (Forall_lookup_1 _ _ _ _ (wi_bitset _ _ Hw) Hb) as ((_ & _ & Hz) & _).
        destruct (decide (bv_len b' ≤ k)) as [Hle|]; [|lia]. by rewrite Hz in Ht.
      + intros ws f (c & b & Hc & Hb & -> & ->)%Hin.
        destruct (Hbit k L c HL (Hall _ Hc)) as (b' & Hb' & Ht). rewrite Hb in Hb'. simplify_eq.
        rewrite /bit_of in Ht. destruct (bv_data b' !! (k / usize_bits)) as [x|] eqn:Hx; [|done]. by exists x. }
  destruct (find_sized_spec w n (find_fuel iters) (bi_new iters bl)) as (r & Hrun & Hres).
  - by apply bi_new_inv.
  - rewrite /find_fuel. pose proof (future_new_length iters bl). lia.
  - intros k (L & (a & Ha & _)%arch_ids_lookup & _)%Hfut. eauto.
  - exists r. split; [done|]. destruct r as [k|].
    + destruct Hres as ((L & HL & Hall)%Hfut & a & Ha & Hn). exists L. split_and!; [done|done|].
      apply arch_ids_lookup in HL as (a' & Ha' & <-). by simplify_eq.
    + intros k L HL Hall. apply arch_ids_lookup in HL as (a & Ha & <-).
      eapply (Hres k a); [|done]. apply Hfut. exists (a_comp_ids a). split; [|done].
      apply arch_ids_lookup. eauto.
Qed.
