(** * What no call changes: the component information of live entities, the ids of
    registered types, the component sets of existing archetypes. *)
From Verif Require Import ProofBase SpecSmall World History ProofEntities ProofBitset ProofArrayVec ProofUVec.
From Verif Require Export ProofWorld.

Record sframe (w w' : world) : Prop := {
  sf_comp : ∀ c, alive (w_ents w) c → alive (w_ents w') c → comp_of w' c = comp_of w c;
  sf_types : types_ext w w';
  sf_ids : ∀ k L, arch_ids w !! k = Some L → arch_ids w' !! k = Some L
}.
Lemma sframe_refl w : sframe w w.
Proof. constructor; [done|by intros ??|done]. Qed.
Lemma sframe_trans w w1 w2 : sframe w w1 → (∀ c, alive (w_ents w) c → alive (w_ents w1) c) → sframe w1 w2 → sframe w w2.
Proof.
  intros [A1 A2 A3] Hal [B1 B2 B3]. constructor.
  - intros c H1 H2. rewrite B1 ?A1; auto.
  - intros t c Ht. by apply B2, A2.
  - intros k L HL. by apply B3, A3.
Qed.
Lemma keeps_frame w w' : keeps w w' → sframe w w'.
Proof.
  intros [H1 H2 H3 H4 H5 H6]. constructor; [|by rewrite /types_ext H3|done]. intros c _ _. by rewrite /comp_of H2.
Qed.
Lemma grow_frame w w' : grow w w' → sframe w w'.
Proof. intros H. constructor; [|exact (gr_types _ _ H)|apply H]. intros c Hc _. by apply grow_comp. Qed.
Lemma sgrow_frame w w' e : sgrow w w' e → sframe w w'.
Proof. intros H. constructor; [|exact (sg_types _ _ _ H)|apply H]. intros c Hc _. by rewrite /comp_of (sg_meta _ _ _ H). Qed.
Lemma add_panic_frame w R e c r w' : add_panic w R e c r w' → sframe w w'.
Proof.
  intros [(-> & _)|(_ & _ & _ & Hw' & [H1 H2 H3 H4 H5 H6 H7] & Hids & _)]; [apply sframe_refl|]. constructor.
  - intros c0 _ _. by rewrite /comp_of /meta_at H4.
  - by rewrite /types_ext H5.
  - by rewrite Hids.
Qed.
Lemma registers_frame w R t c w1 R1 : registers w R t c w1 R1 → sframe w w1 ∧ ∀ c, alive (w_ents w) c → alive (w_ents w1) c.
Proof. intros (Hg & _). split; [by apply grow_frame|apply Hg]. Qed.
Lemma dkeeps_frame w w' e : alive (w_ents w) e → ents_wf (w_ents w) → id_wf e → dkeeps e w w' → sframe w w'.
Proof.
  intros Hal Hwf He [H1 H2 H3 H4 H5 H6 H7 H8]. constructor; [|by rewrite /types_ext H4|by rewrite H8].
  intros c Hc Hc'. rewrite /comp_of H2 //. intros Hu.
  assert (c = e) as -> by exact (alive_inj _ _ _ Hc Hal Hu). clear Hu.
  by apply (despawn_alive _ _ _ _ _ Hwf He H1) in Hc' as [? _].
Qed.

Lemma step_frame o w : WInv w → op_legal o w → op_tame o w →
  wp (step o) w (λ _ w' _, sframe w w') (λ r w' _, r ≠ RColumnLength → sframe w w').
Proof.
  intros [R Hw] Hleg [Hroom Htame]. fold (room 1 w) in Hroom.
  destruct o as [cap meta bs fin|e|e t v|e t|e c|e c v|e c|t|e c v|e t|e]; cbn [op_legal] in Hleg.
  - destruct Hleg as [Hlay Hleg]. cbn [step]. apply wp_bind.
    eapply wp_mono; [by apply (spawn_program_spec w R cap meta bs fin)| |].
    + intros e w' ev (-> & Hsg & _). apply wp_ret. by eapply sgrow_frame.
    + intros r w' ev [(-> & -> & Hg & _ & Hw')|[(-> & _)|(e & R' & Hsg & Hw' & Hx)]] Hr; [by apply grow_frame|done|by eapply sgrow_frame].
  - cbn [step]. apply wp_bind. eapply wp_mono; [by apply (despawn_spec w R e)| |].
    + intros b w' ev Hx. apply wp_ret. destruct Hx as [(_ & _ & -> & _)|(_ & Hal & Hk & _)]; [apply sframe_refl|].
      eapply dkeeps_frame; [done|apply Hw|done..].
    + intros r w' ev (-> & _) _. apply sframe_refl.
  - cbn [step]. destruct Hleg as (He & Ht & Hv). apply wp_bind. eapply wp_mono; [by apply (add_typed w R e t v)| |].
    + intros [] w' ev (-> & _ & w1 & R1 & c & Hreg & Hx). apply wp_ret.
      destruct (registers_frame _ _ _ _ _ _ Hreg) as [Hf Hl].
      destruct Hx as [(-> & _)|(_ & Hk & _)]; [done|]. eapply sframe_trans; [done..|by apply keeps_frame].
    + intros r w' ev Hx _. destruct Hx as [(_ & [(-> & _)|(_ & _ & Hg & _ & Hw' & _)])|(_ & _ & w1 & R1 & c & Hreg & Hp)]; [apply sframe_refl|by apply grow_frame|].
      destruct (registers_frame _ _ _ _ _ _ Hreg) as [Hf Hl]. eapply sframe_trans; [done..|by eapply add_panic_frame].
  - cbn [step]. destruct Hleg as (He & Ht). apply wp_bind. eapply wp_mono; [by apply (remove_typed w R e t)| |].
    + intros [] w' ev (_ & w1 & R1 & c & Hreg & Hx). apply wp_ret.
      destruct (registers_frame _ _ _ _ _ _ Hreg) as [Hf Hl].
      destruct Hx as [(-> & _)|(_ & Hk & _)]; [done|]. eapply sframe_trans; [done..|by apply keeps_frame].
    + intros r w' ev (-> & Hx) _. destruct Hx as [(-> & _)|(_ & [(_ & Hg & _ & Hw' & _)|(w1 & R1 & c & Hreg & Hp)])]; [apply sframe_refl|by apply grow_frame|].
      destruct (registers_frame _ _ _ _ _ _ Hreg) as [Hf Hl]. destruct Hp as (-> & _). done.
  - cbn [step]. apply wp_bind. eapply wp_mono; [by apply (add_dynamic w R e c)| |].
    + intros [] w' ev (-> & _ & Hk & _). apply wp_ret. by apply keeps_frame.
    + intros r w' ev (-> & [(-> & _)|Hp]) _; [apply sframe_refl|by eapply add_panic_frame].
  - cbn [step]. destruct Hleg as (He & Hc & Hv). apply wp_bind. eapply wp_mono; [apply (add_all w R e c v); [done..|]| |].
    + intros cm Hal Hcm. symmetry. by eapply value_fits_comp.
    + intros [] w' ev (-> & [(-> & _)|(_ & Hk & _)]); apply wp_ret; [apply sframe_refl|by apply keeps_frame].
    + intros r w' ev (-> & Hp) _. by eapply add_panic_frame.
  - cbn [step]. apply wp_bind. eapply wp_mono; [by apply (remove_all w R e c)| |].
    + intros [] w' ev [(-> & _)|(_ & Hk & _)]; apply wp_ret; [apply sframe_refl|by apply keeps_frame].
    + intros r w' ev (-> & -> & _) _. apply sframe_refl.
  - cbn [step]. apply wp_bind. eapply wp_mono; [apply (register_all w R t); [done|by eapply room_le; [|done]; lia|done]| |].
    + intros c w' ev (-> & R' & Hreg). apply wp_ret. by eapply registers_frame.
    + intros r w' ev (_ & _ & Hg & _ & Hw' & _) _. by apply grow_frame.
  - destruct Hleg as (_ & _ & Hv). eapply wp_mono; [by apply (write_all w R e c v)| |].
    + intros r w' ev (-> & [(_ & -> & _)|(_ & Hk & _)]); [apply sframe_refl|by apply keeps_frame].
    + intros r w' ev (_ & -> & _) _. apply sframe_refl.
  - cbn [step]. apply wp_bind. rewrite {1}/wp. pose proof (has_cases w R Hw e t) as H.
    destruct (has_component e t w) as [b w' ev|r w' ev| |]; [| |done..].
    + destruct H as (-> & -> & _). apply wp_ret, sframe_refl.
    + destruct H as (-> & -> & _). right. intros _. apply sframe_refl.
  - cbn [step]. apply wp_bind. apply wp_is_alive; intros; [apply wp_ret, sframe_refl..|]. apply sframe_refl.
Qed.
