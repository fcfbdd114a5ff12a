(** * Rough histories: adding and removing components *)
From Verif Require Import ProofBase SpecSmall World Query History ProofEntities ProofBitset ProofArrayVec ProofUVec.
From Verif Require Export ProofRoughInv.

(** ** Steps that keep the invariant and the account.  [X]: what else relates the two worlds. *)
Section gp.
  Context (X : relation world) `{!PreOrder X}.
  Definition gm (w : world) (G : list event) (w' : world) (ev : list event) : Prop :=
    rinv w' ∧ X w w' ∧ acct w G w' ev.
  Definition gp {A} (m : M world A) (w : world) (G : list event) (Q : A → world → Prop) : Prop :=
    rp m w (λ r w' ev, gm w G w' ev ∧ Q r w') (λ _ w' ev, gm w G w' ev).
  Lemma gm_refl w G : rinv w → gm w G w [].
  Proof using PreOrder0. intros H. split; [done|]. split; [reflexivity|apply acct_refl]. Qed.
  Lemma gm_mono w G G' w' ev : gm w G w' ev → (∀ x, cnt x G ≤ cnt x G') → gm w G' w' ev.
  Proof. intros (A & B & C) H. split; [done|]. split; [done|]. by eapply acct_mono. Qed.
  Lemma gm_trans w1 w2 w3 G1 G2 G e1 e2 : gm w1 G1 w2 e1 → gm w2 G2 w3 e2 → (∀ x, cnt x G1 + cnt x G2 ≤ cnt x G) → gm w1 G w3 (e1 ++ e2).
  Proof using PreOrder0. intros (A & B & C) (A' & B' & C') H. split; [done|]. split; [by etrans|by eapply acct_trans]. Qed.
  Lemma gp_ret {A} (a : A) w G (Q : A → world → Prop) : rinv w → Q a w → gp (ret a) w G Q.
  Proof using PreOrder0. intros Hw HQ. split; [by apply gm_refl|done]. Qed.
  Lemma gp_panic {A} r w G (Q : A → world → Prop) : rinv w → gp (panic r) w G Q.
  Proof using PreOrder0. intros Hw. by apply gm_refl. Qed.
  Lemma gp_mono {A} (m : M world A) w G (Q Q' : A → world → Prop) : gp m w G Q → (∀ a w', Q a w' → Q' a w') → gp m w G Q'.
  Proof. intros H HQ. eapply rp_mono; [exact H| |done]. intros a w' ev [? ?]. auto. Qed.
  Lemma gp_bind {A B} (m : M world A) (k : A → M world B) w G1 G2 G (Q1 : A → world → Prop) Q :
    gp m w G1 Q1 → (∀ r w1, rinv w1 → X w w1 → Q1 r w1 → gp (k r) w1 G2 Q) →
    (∀ x, cnt x G1 + cnt x G2 ≤ cnt x G) → gp (bind m k) w G Q.
  Proof using PreOrder0.
    intros Hm Hk HG. eapply rp_bind'; [exact Hm| |].
    - intros r w' ev H. eapply gm_mono; [exact H|]. intros x. specialize (HG x). lia.
    - intros r w1 ev [Hg HQ]. eapply rp_mono; [apply (Hk r w1); [apply Hg..|done]| |].
      + intros b w2 ev2 [Hg2 ?]. split; [|done]. eapply gm_trans; [exact Hg|exact Hg2|exact HG].
      + intros b w2 ev2 Hg2. eapply gm_trans; [exact Hg|exact Hg2|exact HG].
  Qed.
  Lemma gp_then {A B} (m : M world A) (k : A → M world B) w G (Q1 : A → world → Prop) Q :
    gp m w [] Q1 → (∀ r w1, rinv w1 → X w w1 → Q1 r w1 → gp (k r) w1 G Q) → gp (bind m k) w G Q.
  Proof using PreOrder0. intros. eapply gp_bind; [done..|]. intros x. rewrite cnt_nil. lia. Qed.
  (** A value that is either destroyed by the unwinding or passed on. *)
  Lemma gp_unwind_then {A B} (m : M world A) (k : A → M world B) w G (Q1 : A → world → Prop) Q :
    gp m w [] Q1 → (∀ r w1, rinv w1 → X w w1 → Q1 r w1 → gp (k r) w1 G Q) → gp (bind (on_unwind m (Some G)) k) w G Q.
  Proof using PreOrder0.
    intros H Hk. rewrite /gp /rp /bind /on_unwind in H |- *. destruct (m w) as [a w1 ev|r w1 ev| |]; [| |done..].
    - destruct H as [H HQ]. pose proof (Hk a w1 (proj1 H) (proj1 (proj2 H)) HQ) as H2. rewrite /gp /rp in H2. cbn.
      destruct (k a w1) as [b w2 ev2|r w2 ev2| |]; [| |done..].
      + destruct H2 as [H2 HQ2]. split; [|done]. eapply gm_trans; [done..|]. intros x. rewrite cnt_nil. lia.
      + eapply gm_trans; [done..|]. intros x. rewrite cnt_nil. lia.
    - destruct H as (H1 & H2 & H3). cbn. split; [done|]. split; [done|]. intros x. specialize (H3 x). rewrite cnt_nil in H3. rewrite cnt_app. lia.
  Qed.
  Lemma gp_then_r {A B} (m : M world A) (k : A → M world B) w G (Q1 : A → world → Prop) Q :
    gp m w G Q1 → (∀ r w1, rinv w1 → X w w1 → Q1 r w1 → gp (k r) w1 [] Q) → gp (bind m k) w G Q.
  Proof using PreOrder0. intros. eapply gp_bind; [done..|]. intros x. rewrite cnt_nil. lia. Qed.
  Lemma gp_step {A B} (m : M world A) (k : A → M world B) w a G Q : m w = Done a w [] → gp (k a) w G Q → gp (bind m k) w G Q.
  Proof. intros H1 H2. by eapply rp_step. Qed.
  Lemma gp_unwrap {A B} (o : option A) r (k : A → M world B) w G Q : rinv w →
    (∀ a, o = Some a → gp (k a) w G Q) → gp (bind (unwrap o r) k) w G Q.
  Proof using PreOrder0.
    intros Hw H. destruct o as [a|]; [by eapply gp_step; [|apply H]|]. eapply rp_stop; [done|]. by apply gm_refl.
  Qed.
  Lemma gp_massert {B} (b : bool) r (k : () → M world B) w G Q : rinv w →
    (b = true → gp (k ()) w G Q) → gp (bind (massert b r) k) w G Q.
  Proof using PreOrder0.
    intros Hw H. destruct b; [by eapply gp_step; [|apply H]|]. eapply rp_stop; [done|]. by apply gm_refl.
  Qed.
  Lemma gp_get_arch {B} i (k : archetype → M world B) w G Q : rinv w →
    (∀ a, w_archs w !! i = Some a → gp (k a) w G Q) → gp (bind (get_arch i) k) w G Q.
  Proof using PreOrder0.
    intros Hw H. destruct (w_archs w !! i) as [a|] eqn:E.
    - eapply gp_step; [by apply get_arch_done|by apply H].
    - eapply rp_stop; [|by apply gm_refl]. rewrite /get_arch /bind /gets /= E. done.
  Qed.
End gp.
Lemma gp_weaken {A} (X Y : relation world) (m : M world A) w G Q : (∀ w1 w2, X w1 w2 → Y w1 w2) → gp X m w G Q → gp Y m w G Q.
Proof.
  intros H Hm. eapply rp_mono; [exact Hm| |].
  - intros a w' ev [(? & ? & ?) ?]. split; [|done]. split; [done|]. split; [by apply H|done].
  - intros a w' ev (? & ? & ?). split; [done|]. split; [by apply H|done].
Qed.
Lemma gp_acct {A} (X : relation world) (m : M world A) w G G' Q : gp X m w G Q → (∀ x, cnt x G ≤ cnt x G') → gp X m w G' Q.
Proof.
  intros Hm H. eapply rp_mono; [exact Hm| |].
  - intros a w' ev [? ?]. split; [|done]. by eapply gm_mono; [eassumption|].
  - intros a w' ev Hg. by eapply gm_mono; [exact Hg|].
Qed.

(** ** The moves *)
Global Instance cw_preorder : PreOrder cw.
Proof. split; [exact cw_refl|exact cw_trans]. Qed.
Record gext (w w' : world) : Prop := {
  ge_ents : w_ents w' = w_ents w;
  ge_meta : ∀ i, em_comp <$> meta_at w' i = em_comp <$> meta_at w i;
  ge_types : w_types w' = w_types w;
  ge_reuse : w_reuse w' = w_reuse w;
  ge_ids : ∀ k L, arch_ids w !! k = Some L → arch_ids w' !! k = Some L
}.
Global Instance gext_preorder : PreOrder gext.
Proof.
  split; [by constructor|]. intros w1 w2 w3 [A1 A2 A3 A4 A5] [B1 B2 B3 B4 B5]. constructor; try congruence; auto.
Qed.
Lemma cw_gext w w' : cw w w' → gext w w'.
Proof. intros H. pose proof (cw_ids _ _ H) as E. destruct H. constructor; try done. by rewrite E. Qed.
Lemma gext_comp w w' c : gext w w' → comp_of w' c = comp_of w c.
Proof. intros H. apply (ge_meta _ _ H). Qed.

Lemma storage_id_r k j L w : rinv w → arch_ids w !! k = Some L →
  storage_id k j w = match L !! j with Some d => Done d w [] | None => Panicked RIndex w [] end.
Proof.
  intros Hw (a & Ha & <-)%arch_ids_lookup. rewrite /storage_id (bind_done_nil _ _ _ _ _ (get_arch_done _ _ _ Ha)).
  rewrite -(as_storages _ (ri_shape _ Hw _ _ Ha)) list_lookup_fmap. by destruct (a_storages a !! j) as [[]|].
Qed.

Section zip.
  Context (c : ecsid) (cur tar row : nat) (Lc Lt : list ecsid) (Hne : cur ≠ tar).
  Lemma add_zip_r n i j sk w : rinv w → arch_ids w !! cur = Some Lc → arch_ids w !! tar = Some Lt → NoDup Lt →
    n = length Lt - j → filter (λ x, x ≠ c) (drop j Lt) = drop i Lc →
    match sk with Some j0 => Lt !! j0 = Some c ∧ j0 < j | None => c ∈ drop j Lt end →
    gp cw (add_zip c cur tar row (length Lc) i (seq j n) sk) w []
      (λ r _, match r with Some j0 => Lt !! j0 = Some c | None => last Lt = Some c end).
  Proof using Hne.
    revert i j sk w. induction n as [|n IH]; intros i j sk w Hw Hc Ht Hnd Hn Hrel Hsk.
    - cbn [seq add_zip]. assert (length Lt ≤ j) as Hj by lia. rewrite (drop_ge Lt) // in Hsk.
      assert (gp cw (ret sk) w [] (λ r _, match r with Some j0 => Lt !! j0 = Some c | None => last Lt = Some c end)) as Hfin.
      { apply gp_ret; [apply _|done|]. destruct sk; [by destruct Hsk|]. by apply elem_of_nil in Hsk. }
      case_decide; exact Hfin.
    - cbn [seq add_zip]. assert (j < length Lt) as Hj by lia. case_decide as Hi.
      + rewrite (drop_ge Lc) // in Hrel. apply gp_ret; [apply _|done|]. destruct sk as [j0|]; [by destruct Hsk|].
        assert (∀ d, d ∈ drop j Lt → d = c) as Hall.
        { intros d Hd. destruct (decide (d = c)); [done|]. exfalso.
          assert (d ∈ filter (λ x, x ≠ c) (drop j Lt)) as Hf by by apply elem_of_list_filter.
          rewrite Hrel in Hf. by apply elem_of_nil in Hf. }
        rewrite -(take_drop j Lt) last_app. destruct (last (drop j Lt)) as [d|] eqn:Hl.
        * f_equal. apply Hall. by apply last_Some_elem_of.
        * apply last_None in Hl. rewrite Hl in Hsk. by apply elem_of_nil in Hsk.
      + destruct (lookup_lt_is_Some_2 Lt j Hj) as [d Hd].
        eapply gp_step; [by rewrite (storage_id_r _ _ _ _ Hw Ht) Hd|].
        rewrite (drop_S _ _ _ Hd) filter_cons in Hrel. destruct (decide (d = c)) as [->|Hdc].
        * rewrite decide_False in Hrel; [|naive_solver].
          assert (sk = None) as ->.
          { destruct sk as [j0|]; [|done]. destruct Hsk as [Hj0 Hlt].
            assert (j0 = j) by by eapply (NoDup_lookup Lt). lia. }
          eapply gp_step; [done|]. apply (IH i (S j) (Some j)); try done; [lia|]. split; [done|lia].
        * rewrite decide_True in Hrel; [|done].
          assert (Lc !! i = Some d) as Hid.
          { rewrite -(Nat.add_0_r i) -lookup_drop -Hrel. done. }
          rewrite (drop_S _ _ _ Hid) in Hrel. injection Hrel as Hrel.
          eapply (gp_then cw _ _ _ _ (λ _ _, True)).
          { eapply rp_mono; [by eapply (move_element_r cur i tar j row d Lc Lt)| |]; [intros ??? H; split; [exact H|done]|intros ??? H; exact H]. }
          intros [] w1 Hw1 HX _. apply (IH (S i) (S j) sk); try done.
          -- by rewrite (cw_ids _ _ HX).
          -- by rewrite (cw_ids _ _ HX).
          -- lia.
          -- destruct sk as [j0|]; [split; [tauto|lia]|].
             rewrite (drop_S _ _ _ Hd) in Hsk. by apply elem_of_cons in Hsk as [?|?].
  Qed.
  Lemma rem_zip_r n i j sk w : rinv w → arch_ids w !! cur = Some Lc → arch_ids w !! tar = Some Lt → NoDup Lc →
    n = length Lc - i → filter (λ x, x ≠ c) (drop i Lc) = drop j Lt →
    match sk with Some i0 => Lc !! i0 = Some c ∧ i0 < i | None => c ∈ drop i Lc end →
    gp cw (rem_zip c cur tar row (length Lt) (seq i n) j sk) w []
      (λ r _, match r with Some i0 => Lc !! i0 = Some c | None => True end).
  Proof using Hne.
    revert i j sk w. induction n as [|n IH]; intros i j sk w Hw Hc Ht Hnd Hn Hrel Hsk.
    - cbn [seq rem_zip]. apply gp_ret; [apply _|done|]. destruct sk; [by destruct Hsk|done].
    - cbn [seq rem_zip]. assert (i < length Lc) as Hi by lia.
      destruct (lookup_lt_is_Some_2 Lc i Hi) as [d Hd].
      eapply gp_step; [by rewrite (storage_id_r _ _ _ _ Hw Hc) Hd|].
      rewrite (drop_S _ _ _ Hd) filter_cons in Hrel. destruct (decide (d = c)) as [->|Hdc].
      + rewrite decide_False in Hrel; [|naive_solver].
        assert (sk = None) as ->.
        { destruct sk as [j0|]; [|done]. destruct Hsk as [Hj0 Hlt].
          assert (j0 = i) by by eapply (NoDup_lookup Lc). lia. }
        eapply gp_step; [done|]. apply (IH (S i) j (Some i)); try done; [lia|]. split; [done|lia].
      + rewrite decide_True in Hrel; [|done].
        assert (Lt !! j = Some d) as Hjd.
        { rewrite -(Nat.add_0_r j) -lookup_drop -Hrel. done. }
        rewrite decide_False; [|apply lookup_lt_Some in Hjd; lia].
        rewrite (drop_S _ _ _ Hjd) in Hrel. injection Hrel as Hrel.
        eapply (gp_then cw _ _ _ _ (λ _ _, True)).
        { eapply rp_mono; [by eapply (move_element_r cur i tar j row d Lc Lt)| |]; [intros ??? H; split; [exact H|done]|intros ??? H; exact H]. }
        intros [] w1 Hw1 HX _. apply (IH (S i) (S j) sk); try done.
        * by rewrite (cw_ids _ _ HX).
        * by rewrite (cw_ids _ _ HX).
        * lia.
        * destruct sk as [j0|]; [split; [tauto|lia]|].
          rewrite (drop_S _ _ _ Hd) in Hsk. by apply elem_of_cons in Hsk as [?|?].
  Qed.
End zip.

(** ** Rows *)
Lemma gp_entities k f w : rinv w → gp cw (in_arch k (modify (λ a, a_set_entities (f a) a))) w [] (λ _ _, True).
Proof. intros Hw. eapply rp_mono; [by apply entities_r| |]; [intros ??? H; split; [exact H|done]|intros ??? H; exact H]. Qed.
Lemma gp_update_meta i f w : rinv w → gp cw (update_meta i f) w [] (λ _ _, True).
Proof. intros Hw. eapply rp_mono; [by apply update_meta_r| |]; [intros ??? H; split; [exact H|done]|intros ??? H; exact H]. Qed.
Lemma push_row_r tar e w : rinv w → gp cw (push_row tar e) w [] (λ _ _, True).
Proof.
  intros Hw. rewrite /push_row. eapply gp_then; [apply _|by apply gp_entities|]. intros _ w1 Hw1 _ _. cbn beta.
  apply gp_get_arch; [apply _|done|]. intros a _. by apply gp_update_meta.
Qed.
Lemma remove_row_r cur row w : rinv w → gp cw (remove_row cur row) w [] (λ _ _, True).
Proof.
  intros Hw. rewrite /remove_row. apply gp_get_arch; [apply _|done|]. intros a _.
  apply gp_unwrap; [apply _|done|]. intros es _.
  eapply gp_then; [apply _|by apply (gp_entities cur (λ _, es))|]. intros _ w1 Hw1 _ _. cbn beta.
  destruct (es !! row); [by apply gp_update_meta|by apply gp_ret; [apply _|..]].
Qed.

(** ** Finding or making the target archetype *)
Lemma rinv_cache_change w k a s : rinv w → w_archs w !! k = Some a → rc_inv s →
  (∀ c j, rc_lookup s !! c = Some j → ∃ L', arch_ids w !! j = Some L' ∧ toggle c (a_comp_ids a) L') →
  let w' := set_archs (<[k := a_set_cache s a]> (w_archs w)) w in
  rinv w' ∧ gext w w' ∧ arch_ids w' = arch_ids w ∧ (∀ G, acct w G w' []).
Proof.
  intros Hw Ha Hs Hc w'.
  assert (arch_ids w' = arch_ids w) as Hids by by eapply arch_ids_insert.
  split_and!; [| |done|].
  - eapply (rinv_change w); try done.
    + apply (ri_reuse _ Hw).
    + apply (ri_ents _ Hw).
    + intros k' a' Ha'. simpl in Ha'. apply list_lookup_insert_Some in Ha' as [(-> & <- & _)|(_ & Ha')].
      * destruct (ri_shape _ Hw _ _ Ha) as [H1 H2 H3 H4]. split_and!; [by constructor|by apply (ri_cols _ Hw _ _ Ha)|done].
      * split_and!; [by eapply ri_shape|by eapply (ri_cols _ Hw)|by eapply (ri_cache _ Hw)].
    + apply (ri_comps _ Hw).
    + intros i em Hem. split; [by eapply (ri_meta _ Hw)|by eapply (ri_layout _ Hw)].
    + intros t d Ht. by destruct (ri_types _ Hw _ _ Ht) as (_ & _ & ?).
  - constructor; try done. by rewrite Hids.
  - intros G x. rewrite cnt_nil. pose proof (cnt_owed_insert w k a (a_set_cache s a) x Ha) as E.
    change (owed_arch (a_set_cache s a)) with (owed_arch a) in E. fold w' in E. lia.
Qed.
Lemma cache_lookup_r w k a c : rinv w → w_archs w !! k = Some a →
  ∃ r w', in_arch k (in_cache (rc_lookup_id c)) w = Done r w' [] ∧ gm gext w [] w' [] ∧ arch_ids w' = arch_ids w ∧
    match r with Some j => ∃ L', arch_ids w !! j = Some L' ∧ toggle c (a_comp_ids a) L' | None => True end.
Proof.
  intros Hw Ha. destruct (cache_lookup_run w k a c Ha) as (s & Hrun & Hs & Hinv).
  { by eapply as_cache, ri_shape. }
  destruct (rinv_cache_change w k a s Hw Ha Hinv) as (H1 & H2 & H3 & H4).
  { rewrite Hs. intros c' j Hj. by eapply (ri_cache _ Hw). }
  eexists _, _. split; [exact Hrun|]. split; [|split; [done|]].
  - split; [done|]. split; [done|apply H4].
  - destruct (rc_lookup (a_cache a) !! c) eqn:E; [|done]. by eapply (ri_cache _ Hw).
Qed.
Lemma cache_insert_r w k L c n L' : rinv w → arch_ids w !! k = Some L →
  arch_ids w !! n = Some L' → toggle c L L' →
  ∃ w', in_arch k (in_cache (rc_insert_id c n)) w = Done () w' [] ∧ gm gext w [] w' [] ∧ arch_ids w' = arch_ids w.
Proof.
  intros Hw (a & Ha & <-)%arch_ids_lookup HL Ht. destruct (cache_insert_run w k a c n Ha) as (s & Hrun & Hs & Hinv).
  { by eapply as_cache, ri_shape. }
  destruct (rinv_cache_change w k a s Hw Ha Hinv) as (H1 & H2 & H3 & H4).
  { intros c' j. rewrite Hs lookup_insert_Some. intros [[<- <-]|[_ Hj]]; [eauto|]. by eapply (ri_cache _ Hw). }
  eexists. split; [exact Hrun|]. split; [|done]. split; [done|]. split; [done|apply H4].
Qed.
Lemma push_r w a : rinv w → arch_shape a → arch_cols (comp_of w) a → a_cache a = rc_new →
  (∀ c, c ∈ a_comp_ids a → alive (w_ents w) c) →
  (∀ k, arch_ids w !! k ≠ Some (a_comp_ids a)) →
  (w_archs w = [] → a_comp_ids a = []) →
  ∃ w', push_archetype a w = Done (length (w_archs w)) w' [] ∧ rinv w' ∧ gext w w' ∧
    w_archs w' = w_archs w ++ [a] ∧ w_meta w' = w_meta w ∧ (∀ x, cnt x (owed w') = cnt x (owed w) + cnt x (owed_arch a)).
Proof.
  intros Hw Hsh Hcols Hcache Hcomps Hnew Hzero.
  destruct (push_archetype_r a w Hw) as (bs & eb & Hrun & Hbs & Hbits & Heb & Hebl & Hebb).
  set (w' := set_archs _ _) in Hrun. exists w'. set (n := length (w_archs w)) in *.
  assert (length (arch_ids w) = n) as Hli by apply arch_ids_length.
  assert (arch_ids w' = arch_ids w ++ [a_comp_ids a]) as Hids by by rewrite /arch_ids /w' /= fmap_app.
  assert (∀ k L, arch_ids w' !! k = Some L ↔ arch_ids w !! k = Some L ∨ (k = n ∧ L = a_comp_ids a)) as HidsL.
  { intros k L. rewrite Hids lookup_app_Some Hli. split.
    - intros [?|[Hk H]]; [by left|]. right. apply list_lookup_singleton_Some in H as [? <-]. split; [lia|done].
    - intros [?|[-> ->]]; [by left|]. right. rewrite Nat.sub_diag. done. }
  assert (∀ k x, w_archs w' !! k = Some x → w_archs w !! k = Some x ∨ (k = n ∧ x = a)) as HA.
  { intros k x. rewrite /w' /= lookup_app_Some. intros [?|[Hk H]]; [by left|]. right.
    apply list_lookup_singleton_Some in H as [? <-]. split; [rewrite /n; lia|done]. }
  split; [done|]. split; [|split; [|split; [done|split; [done|]]]].
  - constructor.
    + apply (ri_ents _ Hw).
    + intros k x [Hx|[_ ->]]%HA; [by eapply ri_shape|done].
    + intros k x [Hx|[_ ->]]%HA; [by eapply (ri_cols _ Hw)|done].
    + intros k x Hx. rewrite Hids. apply HA in Hx as [Hx|[_ ->]].
      * intros c j Hj. destruct (ri_cache _ Hw _ _ Hx c j Hj) as (L' & HL' & ?). exists L'. split; [|done].
        by apply lookup_app_l_Some.
      * intros c j Hj. rewrite Hcache lookup_empty in Hj. done.
    + intros k L c HL Hc. apply HidsL in HL as [HL|[-> ->]]; [by eapply (ri_comps _ Hw)|by apply Hcomps].
    + intros k k' L HL HL'. apply HidsL in HL as [HL|[-> ->]], HL' as [HL'|[-> HE]].
      * by eapply (ri_distinct _ Hw).
      * subst. by destruct (Hnew k).
      * by destruct (Hnew k').
      * done.
    + intros L HL. apply HidsL in HL as [HL|[HE ->]]; [by eapply (ri_zero _ Hw)|]. apply Hzero. by apply nil_length_inv.
    + rewrite /w' /= app_length /= Nat.add_1_r. done.
    + intros i k. rewrite Hbits (ri_bits _ Hw). split.
      * intros [(L & c & HL & Hc & Hu)|(-> & c & Hc & Hu)]; (eexists _, c; split; [|done]); apply HidsL; eauto.
      * intros (L & c & HL & Hc & Hu). apply HidsL in HL as [HL|[-> ->]]; eauto 10.
    + rewrite /w' /= app_length /=. split_and!; [done|rewrite Hebl /n; lia|]. intros k Hk. apply Hebb. rewrite /n. lia.
    + apply (ri_meta _ Hw).
    + intros i em Hem. split; [by apply (ri_layout _ Hw i em)|]. by destruct (w_archs w).
    + apply (ri_types _ Hw).
    + apply (ri_types_inj _ Hw).
    + apply (ri_reuse _ Hw).
  - constructor; try done. intros k L HL. apply HidsL. by left.
  - intros x. rewrite !owed_archs /w' /= bind_app cnt_app. by rewrite /= app_nil_r.
Qed.
(** An archetype made without rows owes nothing. *)
Lemma owed_arch_empty cmo a : arch_rows cmo a [] → owed_arch a = [].
Proof.
  intros [_ H _]. rewrite /owed_arch. induction (a_storages a) as [|[c v] l IH]; [done|].
  rewrite fmap_cons bind_cons IH; [|intros d u Hd; apply H; by right]. simpl. rewrite app_nil_r.
  destruct (H c v) as (cm & _ & _ & Hr); [left|]. rewrite (owed_vec_rep _ _ Hr). done.
Qed.
Lemma arch_rows_arch_cols cmo a rs : arch_rows cmo a rs → arch_cols cmo a.
Proof. intros [_ H _] c v Hin. destruct (H c v Hin) as (cm & ? & ? & Hr). split; [by eapply uv_rep_wf|]. eauto. Qed.

Definition target (c : ecsid) (L : list ecsid) (w0 : world) (n : nat) (w : world) : Prop :=
  ∃ L', arch_ids w !! n = Some L' ∧ toggle c L L'.
Lemma push_target_r w cur L c na : rinv w → arch_ids w !! cur = Some L →
  arch_shape na → arch_rows (comp_of w) na [] → a_cache na = rc_new → toggle c L (a_comp_ids na) →
  toggles_to c L w None → (∀ d, d ∈ a_comp_ids na → alive (w_ents w) d) →
  gp gext (let* n := push_archetype na in do* in_arch cur (in_cache (rc_insert_id c n)) in ret n) w [] (target c L w).
Proof.
  intros Hw HL Hsh Hrows Hcache Ht Hnone Hcomps.
  destruct (push_r w na Hw Hsh) as (w1 & Hrun & Hw1 & X1 & HA & _ & Ho); try done.
  { by eapply arch_rows_arch_cols. }
  { intros k Hk. by apply (Hnone k _ Hk). }
  { intros E. apply arch_ids_lookup in HL as (a & Ha & _). by rewrite E in Ha. }
  assert (arch_ids w1 !! length (w_archs w) = Some (a_comp_ids na)) as Hn.
  { apply arch_ids_lookup. exists na. by rewrite HA list_lookup_middle. }
  destruct (cache_insert_r w1 cur L c (length (w_archs w)) (a_comp_ids na) Hw1) as (w2 & Hrun2 & (Hw2 & X2 & A2) & Hids2); [by apply (ge_ids _ _ X1)|done|done|].
  rewrite /gp /rp (bind_done_nil _ _ _ _ _ Hrun) (bind_done_nil _ _ _ _ _ Hrun2). cbn [ret]. split; [|exists (a_comp_ids na); by rewrite Hids2].
  split; [done|]. split; [by etrans|]. intros x. specialize (A2 x). rewrite Ho (owed_arch_empty _ _ Hrows) !cnt_nil in A2. rewrite !cnt_nil. lia.
Qed.
Lemma lock_world_r c w : rinv w → gm gext w [] (lock_world c w) [] ∧ arch_ids (lock_world c w) = arch_ids w ∧ w_meta (lock_world c w) = w_meta w ∧ w_archs (lock_world c w) = w_archs w.
Proof.
  intros Hw. pose proof (rinv_lock c w Hw) as H. rewrite /lock_world in H |- *. destruct (w_lock_lookup w !! c).
  - split; [apply gm_refl; [apply _|done]|done].
  - split; [|done]. split; [done|]. split; [by constructor|]. intros x. change (owed (set_locks _ _)) with (owed w). rewrite !cnt_nil. lia.
Qed.
Lemma gp_ensure_lock {B} c (K : () → M world B) w G Q : rinv w →
  (∀ w1, rinv w1 → gext w w1 → arch_ids w1 = arch_ids w → w_meta w1 = w_meta w → w_archs w1 = w_archs w → gp gext (K ()) w1 G Q) →
  gp gext (bind (ensure_lock c) K) w G Q.
Proof.
  intros Hw H. destruct (lock_world_r c w Hw) as (Hg & H1 & H2 & H3).
  eapply (gp_then gext _ _ _ _ (λ _ w1, w1 = lock_world c w)).
  - rewrite /gp /rp ensure_lock_run. done.
  - intros [] w1 Hw1 X1 ->. by apply H.
Qed.
Lemma gp_is_alive {B} X `{!PreOrder X} e (K : bool → M world B) w G Q : rinv w →
  (∀ b, (b = true ↔ alive (w_ents w) e) → gp X (K b) w G Q) → gp X (bind (is_alive e) K) w G Q.
Proof.
  intros Hw H. pose proof (is_alive_cases w e) as Hc. rewrite /gp /rp /bind. destruct (is_alive e w) as [b w' ev|r w' ev| |]; [| |done..].
  - destruct Hc as (-> & -> & Hb & _). specialize (H b Hb). rewrite /gp /rp in H. destruct (K b w); done.
  - destruct Hc as (-> & -> & _). by apply gm_refl.
Qed.
Lemma gp_get_meta {B} X `{!PreOrder X} e (K : option entity_meta → M world B) w G Q : rinv w →
  (∀ o, (∀ em, o = Some em → alive (w_ents w) e ∧ meta_at w (uindex e) = Some em) → (alive (w_ents w) e → o = meta_at w (uindex e)) → gp X (K o) w G Q) →
  gp X (bind (get_entity_meta e) K) w G Q.
Proof.
  intros Hw H. pose proof (get_entity_meta_cases w e) as Hc. rewrite /gp /rp /bind. destruct (get_entity_meta e w) as [o w' ev|r w' ev| |]; [| |done..].
  - destruct Hc as (-> & -> & b & Hb & Ho). specialize (H o). rewrite /gp /rp in H. destruct (K o w); apply H.
    all: try (intros em ->; destruct b; [split; [exact Hb|done]|done]).
    all: intros Ha; rewrite /alive in Ha; rewrite Ha in Hb; by injection Hb as <-.
  - destruct Hc as (-> & -> & _). by apply gm_refl.
Qed.

Lemma target_r {B} (find : M world (option nat)) (make : M world nat) (K : nat → M world B) w cur L c G Q :
  rinv w → arch_ids w !! cur = Some L →
  (∀ w1, rinv w1 → gext w w1 → arch_ids w1 = arch_ids w →
     ∃ r, find w1 = Done r w1 [] ∧ toggles_to c L w1 r) →
  (∀ w1, rinv w1 → gext w w1 → arch_ids w1 = arch_ids w → toggles_to c L w1 None → gp gext make w1 [] (target c L w1)) →
  (∀ tar w1 L', rinv w1 → gext w w1 → arch_ids w1 !! tar = Some L' → toggle c L L' → gp gext (K tar) w1 G Q) →
  gp gext (let* cached := in_arch cur (in_cache (rc_lookup_id c)) in
      let* found :=
        match cached with
        | Some k => ret (Some k)
        | None =>
            let* idx := find in
            match idx with
            | Some k => do* in_arch cur (in_cache (rc_insert_id c k)) in ret (Some k)
            | None => ret None
            end
        end in
      let* tar := match found with Some k => ret k | None => make end in
      K tar) w G Q.
Proof.
  intros Hw HL Hfind Hmake HK. pose proof HL as (a & Ha & Hids)%arch_ids_lookup. subst L.
  destruct (cache_lookup_r w cur a c Hw Ha) as (r & w1 & Hrun & Hg1 & Hids1 & Hr).
  eapply (gp_then gext _ _ _ _ (λ r' w', r' = r ∧ w' = w1)); [by rewrite /gp /rp Hrun|].
  intros r' w' Hw1 X1 (-> & ->). rewrite -Hids1 in Hr.
  eapply (gp_then gext _ _ _ _ (λ r w2, arch_ids w2 = arch_ids w ∧ toggles_to c (a_comp_ids a) w2 r)).
  { destruct r as [k|]; [by apply gp_ret; [apply _|..]|].
    destruct (Hfind w1 Hw1 X1 Hids1) as (r & Hf & Ht). eapply gp_step; [exact Hf|]. destruct r as [k|].
    - destruct Ht as (L' & HL' & Ht).
      destruct (cache_insert_r w1 cur (a_comp_ids a) c k L' Hw1) as (w2 & Hrun2 & Hg2 & Hids2); [by rewrite Hids1|done|done|].
      rewrite /gp /rp (bind_done_nil _ _ _ _ _ Hrun2). split; [done|]. split; [congruence|]. exists L'. by rewrite Hids2.
    - by apply gp_ret; [apply _|..]. }
  intros found w2 Hw2 X2 (Hids2 & Ht). assert (gext w w2) as X02 by by etrans.
  eapply (gp_then gext _ _ _ _ (λ n w3, ∃ L', arch_ids w3 !! n = Some L' ∧ toggle c (a_comp_ids a) L')).
  { destruct found as [k|]; [by apply gp_ret; [apply _|..]|]. by apply Hmake. }
  intros tar w3 Hw3 X3 (L' & HL' & HT). apply (HK tar w3 L'); try done. by etrans.
Qed.
