(** * Running concrete sessions.  Boolean versions of the legality and tameness conditions of
    calls, and a player of lists of calls, used to exhibit reachable worlds. *)
From stdpp Require Import fin_maps.
From Verif Require Import ProofBase SpecWorld.

Definition id_wf_b (e : ecsid) : bool := (id_gen e <? u32_modulus)%N && (id_idx e <? u32_modulus)%N.
Lemma id_wf_b_ok e : id_wf_b e = true → id_wf e.
Proof. rewrite /id_wf_b andb_true_iff !N.ltb_lt. done. Qed.
Definition layout_wf_b (l : layout) : bool := bool_decide (layout_from_size_align (l_size l) (l_align l) = Some l).
Lemma layout_wf_b_ok l : layout_wf_b l = true → layout_wf l.
Proof. by intros ?%bool_decide_eq_true. Qed.
Definition ty_wf_b (t : ty) : bool := layout_wf_b (layout_of t) && bool_decide (ty_size t mod ty_align t = 0).
Lemma ty_wf_b_ok t : ty_wf_b t = true → ty_wf t.
Proof. rewrite /ty_wf_b andb_true_iff bool_decide_eq_true. intros [?%layout_wf_b_ok ?]. done. Qed.
Definition value_fits_b (w : world) (c : ecsid) (v : value) : bool :=
  match get_entity_meta c w with Done (Some m) _ _ => bool_decide (length v = cm_size (em_comp m)) | _ => true end.
Lemma value_fits_b_ok w c v : value_fits_b w c v = true → value_fits w c v.
Proof. rewrite /value_fits_b /value_fits. intros H s m E. rewrite E in H. by apply bool_decide_eq_true in H. Qed.

Definition bop_legal_b (o : bop) (s : bw) : bool :=
  match o with
  | BWith t v => ty_wf_b t && bool_decide (length v = ty_size t)
  | BWithDynData c v => id_wf_b c && value_fits_b s.2 c v
  | BWithDyn c => id_wf_b c
  | BBuild => true
  end.
Lemma bop_legal_b_ok o s : bop_legal_b o s = true → bop_legal o s.
Proof.
  destruct o as [t v|c|c v|]; cbn [bop_legal_b bop_legal]; [..|done].
  - by intros [?%ty_wf_b_ok ?%bool_decide_eq_true]%andb_prop.
  - by intros ?%id_wf_b_ok.
  - by intros [?%id_wf_b_ok ?%value_fits_b_ok]%andb_prop.
Qed.
Fixpoint bops_legal_b (bs : list bop) (s : bw) : bool :=
  match bs with
  | [] => true
  | o :: bs' => bop_legal_b o s && match run_bop o s with Done _ s' _ => bops_legal_b bs' s' | _ => true end
  end.
Lemma bops_legal_b_ok bs s : bops_legal_b bs s = true → bops_legal bs s.
Proof.
  revert s. induction bs as [|o bs IH]; intros s; [done|]. cbn [bops_legal_b bops_legal]. rewrite andb_true_iff.
  intros [H1%bop_legal_b_ok H2]. split; [done|]. destruct (run_bop o s); auto.
Qed.
Definition op_legal_b (o : op) (w : world) : bool :=
  match o with
  | OSpawn cap meta bs fin =>
      layout_wf_b (cm_layout meta) &&
      match spawn_builder cap meta w with Done b w' _ => bops_legal_b bs (b, w') | _ => true end
  | OAdd e t v => id_wf_b e && (ty_wf_b t && bool_decide (length v = ty_size t))
  | OAddDynData e c v => id_wf_b e && (id_wf_b c && value_fits_b w c v)
  | OWrite e c v => id_wf_b e && (id_wf_b c && value_fits_b w c v)
  | ODespawn e | OIsAlive e => id_wf_b e
  | OAddDyn e c | ORemoveDyn e c => id_wf_b e && id_wf_b c
  | ORemove e t | OHas e t => id_wf_b e && ty_wf_b t
  | ORegister t => ty_wf_b t
  end.
Lemma op_legal_b_ok o w : op_legal_b o w = true → op_legal o w.
Proof.
  destruct o as [cap meta bs fin|e|e t v|e t|e c|e c v|e c|t|e c v|e t|e]; cbn [op_legal_b op_legal].
  - intros [?%layout_wf_b_ok H]%andb_prop. split; [done|]. destruct (spawn_builder cap meta w); auto using bops_legal_b_ok.
  - by intros ?%id_wf_b_ok.
  - by intros [?%id_wf_b_ok [?%ty_wf_b_ok ?%bool_decide_eq_true]%andb_prop]%andb_prop.
  - by intros [?%id_wf_b_ok ?%ty_wf_b_ok]%andb_prop.
  - by intros [?%id_wf_b_ok ?%id_wf_b_ok]%andb_prop.
  - by intros [?%id_wf_b_ok [?%id_wf_b_ok ?%value_fits_b_ok]%andb_prop]%andb_prop.
  - by intros [?%id_wf_b_ok ?%id_wf_b_ok]%andb_prop.
  - by intros ?%ty_wf_b_ok.
  - by intros [?%id_wf_b_ok [?%id_wf_b_ok ?%value_fits_b_ok]%andb_prop]%andb_prop.
  - by intros [?%id_wf_b_ok ?%ty_wf_b_ok]%andb_prop.
  - by intros ?%id_wf_b_ok.
Qed.
Definition op_tame_b (o : op) (w : world) : bool :=
  (N.of_nat (length (w_archs w) + 1) <=? u32_max)%N &&
  match o with
  | OSpawn _ _ bs _ => bool_decide (bops_builds bs ≤ 1)
  | ODespawn e => bool_decide (ents_is_alive (w_ents w) e ≠ Some true) ||
      bool_decide (map_Forall (λ _ c, ¬ (uindex c = uindex e ∧ wrap32 (id_gen e + 1) = id_gen c)) (w_types w))
  | _ => true
  end.
Lemma op_tame_b_ok o w : op_tame_b o w = true → op_tame o w.
Proof.
  rewrite /op_tame_b /op_tame andb_true_iff N.leb_le. intros [H1 H2]. split; [done|].
  destruct o; [by apply bool_decide_eq_true in H2| |done..]. intros Hal. apply orb_true_iff in H2 as [H2%bool_decide_eq_true|H2%bool_decide_eq_true]; [done|].
  intros t c Ht Hi Hg. by apply (H2 t c).
Qed.

Definition sop_legal_b (o : sop) (s : sess) : bool :=
  match o with
  | SWorld o => op_legal_b o (ss_world s) &&
      (match o with OHas _ _ | OIsAlive _ => true | _ => false end ||
       forallb (λ q, match q with None => true | Some _ => false end) (ss_open s))
  | SOpenDyn fs => forallb (λ f, from_option id_wf_b true (fetch_id f)) fs
  | SOpenStat ps => forallb (λ p, from_option ty_wf_b true (param_ty p)) ps
  | SStore i n j v =>
      match ss_open s !! i with
      | Some (Some q) =>
          match oq_fetches (ss_world s) q with
          | Some fs => match fs !! j with Some (FMut c) => value_fits_b (ss_world s) c v | _ => false end
          | None => false
          end
      | _ => true
      end
  | _ => true
  end.
Lemma sop_legal_b_ok o s : sop_legal_b o s = true → sop_legal o s.
Proof.
  destruct o as [o|fs|ps|i u|i|i n j v]; cbn; [..|done|done|].
  - rewrite andb_true_iff orb_true_iff. intros [?%op_legal_b_ok H]. split; [done|]. destruct H as [H|H]; [left; by destruct o|right].
    apply Forall_forall. intros q Hq. rewrite forallb_forall in H. specialize (H q). rewrite -elem_of_list_In in H. destruct q; [|done]. by specialize (H Hq).
  - rewrite forallb_forall. intros H. apply Forall_forall. intros f Hf c Hc. apply id_wf_b_ok. specialize (H f). rewrite -elem_of_list_In in H.
    specialize (H Hf). by rewrite Hc in H.
  - rewrite forallb_forall. intros H. apply Forall_forall. intros p Hp. specialize (H p). rewrite -elem_of_list_In in H. specialize (H Hp).
    destruct p; cbn in *; auto using ty_wf_b_ok.
  - intros H q Hq. rewrite Hq in H. destruct (oq_fetches (ss_world s) q) as [fs|]; [|done]. destruct (fs !! j) as [[|c|c]|] eqn:E; try done.
    exists fs, c. split_and!; [done..|by apply value_fits_b_ok].
Qed.
Definition param_tame_b (p : param) : bool := from_option (λ t, bool_decide (ty_size t ≠ 0 ∨ ty_align t = 1)) true (param_ty p).
Definition sop_tame_b (o : sop) (s : sess) : bool :=
  match o with
  | SWorld o => op_tame_b o (ss_world s)
  | SOpenStat ps => forallb param_tame_b ps
  | _ => true
  end.
Lemma sop_tame_b_ok o s : sop_tame_b o s = true → sop_tame o s.
Proof.
  destruct o; cbn; auto using op_tame_b_ok. rewrite forallb_forall. intros H. apply Forall_forall. intros p Hp t Ht.
  specialize (H p). rewrite -elem_of_list_In in H. specialize (H Hp). rewrite /param_tame_b Ht /= in H. by apply bool_decide_eq_true in H.
Qed.

Definition resumable_b (r : reason) : bool := match r with RCapacity | RColumnLength => false | _ => true end.
(** Make the calls [l] one after the other; caught panics do not stop the session. *)
Fixpoint play (l : list sop) (s : sess) : option (list (res * list event) * sess) :=
  match l with
  | [] => Some ([], s)
  | o :: l' =>
      if sop_legal_b o s && sop_tame_b o s then
        match sstep o s with
        | Done r s' ev => '(rs, s2) ← play l' s'; Some ((ROk r, ev) :: rs, s2)
        | Panicked r s' ev => if resumable_b r then '(rs, s2) ← play l' s'; Some ((RPanic r, ev) :: rs, s2) else None
        | _ => None
        end
      else None
  end.
Lemma steps_app s l s1 l' s2 : steps s l s1 → steps s1 l' s2 → steps s (l ++ l') s2.
Proof.
  intros H1 H2. induction H2; [by rewrite app_nil_r|rewrite app_assoc; eapply steps_done; eauto|rewrite app_assoc; eapply steps_panic; eauto].
Qed.
Lemma play_steps l s rs s' : play l s = Some (rs, s') → ∃ tr, steps s tr s' ∧ tr.*1.*1 = l.
Proof.
  revert s rs. induction l as [|o l IH]; intros s rs H; cbn in H.
  { simplify_eq. exists []. split; [constructor|done]. }
  destruct (sop_legal_b o s && sop_tame_b o s) eqn:E; [|done]. apply andb_true_iff in E as [El%sop_legal_b_ok Et%sop_tame_b_ok].
  destruct (sstep o s) as [r s1 ev|r s1 ev| |] eqn:Ex; [| |done..].
  - destruct (play l s1) as [[rs1 s2]|] eqn:Ep; [|done]. cbn in H. simplify_eq. destruct (IH _ _ Ep) as (tr & Htr & Ho).
    exists ([(o, ROk r, ev)] ++ tr). split; [|cbn; by f_equal]. eapply steps_app; [|done]. apply (steps_done s [] s); [constructor|done..].
  - destruct (resumable_b r) eqn:Er; [|done]. destruct (play l s1) as [[rs1 s2]|] eqn:Ep; [|done]. cbn in H. simplify_eq.
    destruct (IH _ _ Ep) as (tr & Htr & Ho).
    exists ([(o, RPanic r, ev)] ++ tr). split; [|cbn; by f_equal]. eapply steps_app; [|done]. apply (steps_panic s [] s); [constructor|done..|].
    by destruct r.
Qed.
Lemma play_reachable l rs s : play l sess_new = Some (rs, s) → reachable s.
Proof. intros (tr & H & _)%play_steps. by exists tr. Qed.

(** The world after the calls [l] on a new world. *)
Definition wplay (l : list op) : world :=
  match play (SWorld <$> l) sess_new with Some (_, s) => ss_world s | None => world_new end.
Definition wplays (l : list op) : bool :=
  match play (SWorld <$> l) sess_new with Some _ => true | None => false end.
Lemma play_world_open l s rs s' : play (SWorld <$> l) s = Some (rs, s') → ss_open s' = ss_open s.
Proof.
  revert s rs. induction l as [|o l IH]; intros s rs; cbn [play fmap list_fmap]; [by intros [= _ ->]|].
  destruct (_ && _); [|done]. cbn [sstep]. rewrite /bind /in_sworld /zoom.
  destruct (step o (ss_world s)) as [a w ev|r w ev| |]; cbn; [| |done..].
  - destruct (play (SWorld <$> l) (Sess w (ss_open s))) as [[rs1 s2]|] eqn:Ep; [|done]. intros [= _ <-]. by rewrite (IH _ _ Ep).
  - destruct (resumable_b r); [|done]. destruct (play (SWorld <$> l) (Sess w (ss_open s))) as [[rs1 s2]|] eqn:Ep; [|done]. intros [= _ <-]. by rewrite (IH _ _ Ep).
Qed.
Lemma wplay_reachable l : wplays l = true → reachable_world (wplay l).
Proof.
  rewrite /wplays /wplay. destruct (play (SWorld <$> l) sess_new) as [[rs s]|] eqn:E; [|done]. intros _.
  exists s. split; [by eapply play_reachable|]. split; [done|]. rewrite (play_world_open _ _ _ _ E). apply Forall_nil_2.
Qed.

(** Deciding what a world contains. *)
From Verif Require Import ProofHistory.
Global Instance holds_dec w e c v : Decision (holds w e c v).
Proof. refine (cast_if (decide ((e, c, v) ∈ held w))); by rewrite -held_holds. Defined.
Lemma has_iff w e c : has w e c ↔ Exists (λ p, p.1 = (e, c)) (held w).
Proof.
  rewrite Exists_exists. split.
  - intros [v Hv%held_holds]. by exists (e, c, v).
  - intros ([[e' c'] v] & Hv%held_holds & [= <- <-]). by exists v.
Qed.
Global Instance has_dec w e c : Decision (has w e c).
Proof. refine (cast_if (decide (Exists (λ p, p.1 = (e, c)) (held w)))); by rewrite has_iff. Defined.
Lemma stored_iff w e : stored w e ↔ e ∈ w_archs w ≫= a_entities.
Proof.
  rewrite elem_of_list_bind. split.
  - intros (k & i & a & Ha & He). exists a. split; by eapply elem_of_list_lookup_2.
  - intros (a & [i Hi]%elem_of_list_lookup_1 & [k Hk]%elem_of_list_lookup_1). by exists k, i, a.
Qed.
Global Instance stored_dec w e : Decision (stored w e).
Proof. refine (cast_if (decide (e ∈ w_archs w ≫= a_entities))); by rewrite stored_iff. Defined.
Lemma lives_iff w e : lives w e ↔ ents_is_alive (w_ents w) e = Some true.
Proof. apply lives_alive. Qed.
Global Instance lives_dec w e : Decision (lives w e).
Proof. refine (cast_if (decide (ents_is_alive (w_ents w) e = Some true))); by rewrite lives_iff. Defined.
Global Instance type_id_dec w t c : Decision (type_id w t c).
Proof. unfold type_id. apply _. Defined.
Lemma in_use_iff w c : in_use w c ↔ c ∈ w_archs w ≫= columns.
Proof.
  rewrite elem_of_list_bind. split.
  - intros (k & a & j & u & Ha & Hj). exists a. split; [|by eapply elem_of_list_lookup_2]. apply elem_of_list_fmap. exists (c, u).
    split; [done|]. by eapply elem_of_list_lookup_2.
  - intros (a & Hx & [k Hk]%elem_of_list_lookup_1). apply elem_of_list_fmap in Hx as ([c' u] & -> & [j Hj]%elem_of_list_lookup_1).
    by exists k, a, j, u.
Qed.
Global Instance in_use_dec w c : Decision (in_use w c).
Proof. refine (cast_if (decide (c ∈ w_archs w ≫= columns))); by rewrite in_use_iff. Defined.
Lemma placed_iff w e k i : placed w e k i ↔ (w_archs w !! k ≫= λ a, a_entities a !! i) = Some e.
Proof. rewrite /placed bind_Some. done. Qed.
Global Instance placed_dec w e k i : Decision (placed w e k i).
Proof. refine (cast_if (decide ((w_archs w !! k ≫= λ a, a_entities a !! i) = Some e))); by rewrite placed_iff. Defined.
