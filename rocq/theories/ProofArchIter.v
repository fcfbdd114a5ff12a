(** * Queries: which archetypes are visited, and what the iterators yield *)
From Verif Require Import ProofBase SpecSmall World History ProofEntities ProofBitset ProofArrayVec ProofUVec.
From Verif Require Export ProofQuery.

(** Every fetched component is stored in some archetype. *)
Definition ready (w : world) (fs : list fetch) : Prop :=
  ∀ f c, f ∈ fs → fetch_id f = Some c → ∃ k a, w_archs w !! k = Some a ∧ c ∈ a_comp_ids a.
(** The archetype has, for every fetched component, one in the same slot. *)
Definition near (w : world) (fs : list fetch) (k : nat) : Prop :=
  ∃ a, w_archs w !! k = Some a ∧
    ∀ f c, f ∈ fs → fetch_id f = Some c → ∃ c', c' ∈ a_comp_ids a ∧ uindex c' = uindex c.
Definition visits (w : world) (fs : list fetch) (b : biter) : Prop :=
  bi_inv b ∧ StronglySorted lt (future b) ∧ ∀ k, k ∈ future b ↔ fs ≠ [] ∧ near w fs k.
Definition arch_search (fs : list fetch) : M world biter :=
  let* is_ := fetch_iters fs in
  let* bl := gets (λ w, fetch_bit_length w fs) in
  ret (bi_new is_ bl).

Section visited.
  Context (w : world) (R : list (list row)) (Hw : winv w R) (Hroom : room 0 w).
  Local Set Default Proof Using "Hw Hroom".

  Lemma fetch_iters_run fs :
    (∃ its, fetch_iters fs w = Done its w [] ∧ length its = length fs ∧
       (∀ f c, f ∈ fs → fetch_id f = Some c → is_Some (w_bitset w !! uindex c)) ∧
       ∀ ws g, (ws, g) ∈ its ↔ g = identity_map ∧ ∃ f, f ∈ fs ∧
         match fetch_id f with
         | None => ws = bv_data (w_entbits w)
         | Some c => ∃ b, w_bitset w !! uindex c = Some b ∧ ws = bv_data b
         end) ∨
    (fetch_iters fs w = Panicked RUnwrap w [] ∧ ∃ f c, f ∈ fs ∧ fetch_id f = Some c ∧ w_bitset w !! uindex c = None).
  Proof.
    induction fs as [|f fs IH]; cbn [fetch_iters].
    { left. exists []. split_and!; [done..|by intros ? ? ?%elem_of_nil|]. intros ws g. split; [by intros ?%elem_of_nil|].
      by intros (_ & f & ?%elem_of_nil & _). }
    assert ((∃ ws0, fetch_iter f w = Done (ws0, identity_map) w [] ∧
      (∀ c, fetch_id f = Some c → is_Some (w_bitset w !! uindex c)) ∧
      ∀ ws, match fetch_id f with
            | None => ws = bv_data (w_entbits w)
            | Some c => ∃ b, w_bitset w !! uindex c = Some b ∧ ws = bv_data b
            end ↔ ws = ws0) ∨
      (fetch_iter f w = Panicked RUnwrap w [] ∧ ∃ c, fetch_id f = Some c ∧ w_bitset w !! uindex c = None)) as [(ws0 & Hf & Hc & Hws)|(Hf & c & Hc & Hb)].
    { rewrite /fetch_iter (bind_done_nil _ _ w w w eq_refl). destruct (fetch_id f) as [c|].
      - rewrite /bs_get_bitvec. destruct (w_bitset w !! uindex c) as [b|] eqn:Hb.
        + left. exists (bv_data b). cbn [unwrap]. rewrite (bind_done_nil _ _ w b w eq_refl).
          split_and!; [done| |]; [|naive_solver]. intros ? [= <-]. by rewrite Hb.
        + right. split; [done|]. eauto.
      - left. eexists. split_and!; [done| |]; naive_solver. }
    2:{ right. split; [by rewrite /bind Hf|]. exists f, c. split; [left|done]. }
    rewrite (bind_done_nil _ _ _ _ _ Hf). destruct IH as [(its & Hr & Hlen & Hsome & Hits)|(Hr & g & c & Hg & Hgc)].
    - left. rewrite (bind_done_nil _ _ _ _ _ Hr). eexists. split_and!; [done|simpl; by rewrite Hlen| |].
      + intros f' c [->|Hf']%elem_of_cons; [apply Hc|by apply Hsome].
      + intros ws g. rewrite elem_of_cons Hits. split.
        * intros [[= -> ->]|(-> & f' & Hf' & ?)].
          -- split; [done|]. exists f. split; [left|]. by apply Hws.
          -- split; [done|]. exists f'. split; [by right|done].
        * intros (-> & f' & [->|Hf']%elem_of_cons & H).
          -- left. f_equal. by apply Hws.
          -- right. split; [done|]. eauto.
    - right. split; [by rewrite /bind Hr|]. exists g, c. split; [by right|done].
  Qed.

  Lemma wrap32_archs n : n ≤ length (w_archs w) → wrap32 (N.of_nat n) = N.of_nat n.
  Proof.
    intros Hn. apply wrap32_small. move: Hroom. rewrite /room /u32_max. intros H.
    change u32_modulus with (2^32)%N in *. lia.
  Qed.
  Lemma fetch_bit_length_lt fs (bl0 : N) k :
    (k < fold_left (λ bl f,
      match fetch_id f with
      | None => bl
      | Some c =>
          match bs_get_bitvec (w_bitset w) c with
          | None => bl
          | Some b => N.min bl (wrap32 (N.of_nat (bv_len b)))
          end
      end) fs bl0)%N ↔
    (k < bl0)%N ∧ ∀ f c b, f ∈ fs → fetch_id f = Some c → w_bitset w !! uindex c = Some b → (k < N.of_nat (bv_len b))%N.
  Proof.
    revert bl0. induction fs as [|f fs IH]; intros bl0; cbn [fold_left].
    { split; [|naive_solver]. intros ?. split; [done|]. by intros f c b ?%elem_of_nil. }
    rewrite IH. rewrite /bs_get_bitvec. destruct (fetch_id f) as [c|] eqn:Ef.
    - destruct (w_bitset w !! uindex c) as [b|] eqn:Hb.
      + pose proof (Forall_lookup_1 _ _ _ _ (wi_bitset _ _ Hw) Hb) as [_ Hle]. rewrite wrap32_archs //. split.
        * intros [H1 H2]. split; [lia|]. intros f' c' b' [->|Hf']%elem_of_cons Hc' Hb'; [simplify_eq; lia|eauto].
        * intros [H1 H2]. split; [|intros; eapply H2; [by right|done..]]. apply N.min_glb_lt; [done|].
          eapply H2; [left|done..].
      + split.
        * intros [H1 H2]. split; [done|]. intros f' c' b' [->|Hf']%elem_of_cons Hc' Hb'; [simplify_eq|eauto].
        * intros [H1 H2]. split; [done|intros; eapply H2; [by right|done..]].
    - split.
      + intros [H1 H2]. split; [done|]. intros f' c' b' [->|Hf']%elem_of_cons Hc' Hb'; [simplify_eq|eauto].
      + intros [H1 H2]. split; [done|intros; eapply H2; [by right|done..]].
  Qed.

  Lemma arch_search_run fs :
    (∃ b, arch_search fs w = Done b w [] ∧ visits w fs b) ∨
    (arch_search fs w = Panicked RUnwrap w [] ∧ ∃ f c, f ∈ fs ∧ fetch_id f = Some c ∧ w_bitset w !! uindex c = None).
  Proof.
    rewrite /arch_search. destruct (fetch_iters_run fs) as [(its & Hr & Hlen & Hsome & Hits)|(Hr & Hx)].
    2:{ right. split; [by rewrite /bind Hr|done]. }
    left. rewrite (bind_done_nil _ _ _ _ _ Hr) (bind_done_nil _ _ w (fetch_bit_length w fs) w eq_refl).
    eexists. split; [done|]. destruct (wi_entbits _ _ Hw) as (Hewf & Helen & Hebits).
    assert (iters_wf its) as Hiwf.
    { intros ws g (-> & f & _ & H)%Hits. rewrite /identity_map. destruct (fetch_id f) as [c|].
      - destruct H as (b & Hb & ->). by pose proof (Forall_lookup_1 _ _ _ _ (wi_bitset _ _ Hw) Hb) as ((Hwd & _) & _).
      - subst ws. by destruct Hewf. }
    split_and!; [by apply bi_new_inv|apply future_new_sorted|]. intros k.
    destruct fs as [|f0 fs0] eqn:Efs.
    { destruct its; [|done]. rewrite future_new_nil. split; [by intros ?%elem_of_nil|by intros []]. }
    rewrite -Efs in Hlen Hsome Hits |- *.
    rewrite elem_of_future_new; [|intros ->; by rewrite Efs in Hlen].
    rewrite /fetch_bit_length fetch_bit_length_lt Helen wrap32_archs //. split.
    - intros [[Hk Hks] Hcb]. split; [by rewrite Efs|]. destruct (lookup_lt_is_Some_2 (w_archs w) k) as [a Ha]; [lia|].
      exists a. split; [done|]. intros f c Hf Hc. destruct (Hsome _ _ Hf Hc) as [b Hb].
      destruct (Hcb (bv_data b) identity_map) as (x & Hx & Ht).
      { apply Hits. split; [done|]. exists f. split; [done|]. rewrite Hc. eauto. }
      assert (bs_bit (w_bitset w) (uindex c) k = true) as Hbit by (rewrite /bs_bit Hb /bit_of Hx; done).
      apply (wi_bits _ _ Hw) in Hbit as (L & c' & (a' & Ha' & <-)%arch_ids_lookup & Hc' & Hu). simplify_eq. eauto.
    - intros (_ & a & Ha & Hall). assert (k < length (w_archs w)) as Hk by by eapply lookup_lt_Some.
      assert (∀ f c b, f ∈ fs → fetch_id f = Some c → w_bitset w !! uindex c = Some b → bit_of (bv_data b) k = true) as Hbit.
      { intros f c b Hf Hc Hb. destruct (Hall f c Hf Hc) as (c' & Hc' & Hu).
        assert (bs_bit (w_bitset w) (uindex c) k = true) as Ht.
        { apply (wi_bits _ _ Hw). exists (a_comp_ids a), c'. split_and!; [apply arch_ids_lookup; eauto|done..]. }
        by rewrite /bs_bit Hb in Ht. }
      split; [split; [lia|]|].
      + intros f c b Hf Hc Hb. pose proof (Hbit f c b Hf Hc Hb) as Ht.
        pose proof (Forall_lookup_1 _ _ _ _ (wi_bitset _ _ Hw) Hb) as ((_ & _ & Hz) & _).
        destruct (decide (bv_len b ≤ k)) as [Hle|]; [|lia]. by rewrite Hz in Ht.
      + intros ws g (-> & f & Hf & H)%Hits.
        assert (bit_of ws k = true) as Ht.
        { destruct (fetch_id f) as [c|] eqn:Hc; [destruct H as (b & Hb & ->); by eapply Hbit|]. subst ws. by apply Hebits. }
        rewrite /bit_of in Ht. destruct (ws !! (k / usize_bits)) as [x|] eqn:Hx; [|done]. by exists x.
  Qed.

  Lemma ready_bits fs f c : ready w fs → f ∈ fs → fetch_id f = Some c → is_Some (w_bitset w !! uindex c).
  Proof.
    intros Hr Hf Hc. destruct (Hr f c Hf Hc) as (k & a & Ha & Hin).
    assert (bs_bit (w_bitset w) (uindex c) k = true) as Ht.
    { apply (wi_bits _ _ Hw). exists (a_comp_ids a), c. split_and!; [apply arch_ids_lookup; eauto|done..]. }
    rewrite /bs_bit in Ht. destruct (w_bitset w !! uindex c); [eauto|done].
  Qed.
  Lemma ready_near fs k : ready w fs → near w fs k ↔ ∃ a, w_archs w !! k = Some a ∧ matching fs a.
  Proof.
    intros Hr. rewrite /near. f_equiv. intros a. split.
    - intros [Ha Hall]. split; [done|]. intros f c Hf Hc. destruct (Hall f c Hf Hc) as (c' & Hc' & Hu).
      destruct (Hr f c Hf Hc) as (k0 & a0 & Ha0 & Hc0).
      assert (alive (w_ents w) c) as Hal1 by (eapply (wi_comps _ _ Hw k0); [apply arch_ids_lookup; eauto|done]).
      assert (alive (w_ents w) c') as Hal2 by (eapply (wi_comps _ _ Hw k); [apply arch_ids_lookup; eauto|done]).
      by rewrite (alive_inj _ _ _ Hal1 Hal2 (eq_sym Hu)).
    - intros [Ha Hm]. split; [done|]. intros f c Hf Hc. exists c. split; [|done]. by eapply Hm.
  Qed.
  Lemma arch_search_ready fs : ready w fs → fs ≠ [] →
    ∃ b, arch_search fs w = Done b w [] ∧ bi_inv b ∧ StronglySorted lt (future b) ∧
      ∀ k, k ∈ future b ↔ ∃ a, w_archs w !! k = Some a ∧ matching fs a.
  Proof.
    intros Hr Hne. destruct (arch_search_run fs) as [(b & Hrun & Hb & Hs & Hin)|(_ & f & c & Hf & Hc & Hnone)].
    - exists b. split_and!; [done..|]. intros k. rewrite Hin ready_near //. tauto.
    - destruct (ready_bits fs f c Hr Hf Hc). congruence.
  Qed.
End visited.
Local Set Default Proof Using "Type".
