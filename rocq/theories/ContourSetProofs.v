(** Contour sets: the loop over all spans. *)
From Verif Require Import Base ModelMath ModelHeightfield ModelFilters ModelCompact ModelDistance ModelRegions
  ModelContours SpecHeightfield SpecCompact SpecDistance SpecRegions SpecContours PackProofs CompactProofs LinkProofs
  GraphProofs DistanceProofs SweepProofs FlowProofs WatershedProofs OrbitProofs ContourWalkProofs SimplifyProofs.
Local Open Scope Z_scope.

(** ** The border offset *)
Lemma unborder_flag b v : (unborder b v).2 = v.2.
Proof. unfold unborder. by destruct (0 <? b). Qed.
Lemma unborder_pos b v : 0 ≤ b → b ≤ vx v.1 → b ≤ vz v.1 → vpos (unborder b v).1 = (vx v.1 - b, vz v.1 - b).
Proof. intros. unfold unborder, vpos. destruct (Z.ltb_spec 0 b); cbn; f_equal; lia. Qed.
Lemma unborder_y b v : vy (unborder b v).1 = vy v.1.
Proof. unfold unborder. by destruct (0 <? b). Qed.
Lemma unborder_same b u v : vpos u.1 = vpos v.1 → vpos (unborder b u).1 = vpos (unborder b v).1.
Proof. unfold unborder, vpos. intros [= E1 E2]. destruct (0 <? b); cbn; rewrite E1, E2; done. Qed.

Lemma at_loop_fmap f raw j : at_loop (f <$> raw) j = f <$> at_loop raw j.
Proof. unfold at_loop. by rewrite fmap_length, list_lookup_fmap. Qed.
Lemma unborder_vertex b (v v' : vtx * Z) : v.1 = v'.1 → (unborder b v).1 = (unborder b v').1.
Proof. unfold unborder. intros E. destruct (0 <? b); cbn; by rewrite E. Qed.

Section cset.
  Context (ch : chf) (Hwf : wf_chf ch).
  Hypothesis (Hw16 : Z.of_nat (ch_w ch) ≤ 65535) (Hh16 : Z.of_nat (ch_h ch) ≤ 65535).
  Hypothesis (Hsym : symmetric ch) (Hr16 : regions_u16 ch) (Hbc : border_clear ch) (Hsm : regions_small ch).
  Context (err : f32) (len : Z) (wall areas : bool).
  Let w := ch_w ch.
  Let h := ch_h ch.
  Let b := ch_border ch.
  Let mx := Z.max (ch_maxreg ch) 8.

  (** The positions of a walk are clear of the border. *)
  Lemma c_end_clear r s : valid ch r s → inner r → b ≤ fst (c_end ch s) ∧ b ≤ snd (c_end ch s).
  Proof.
    intros (Hin & Hd & Hr) Hi. destruct Hbc as [_ Hnear]. specialize (Hnear _ _ Hr Hi).
    pose proof (in_cell_lt ch Hwf _ _ Hin) as Hc. destruct (cell_coords ch _ Hc) as (Hw & Hx & Hz & Ec).
    set (x := (p_c s mod ch_w ch)%nat) in *. set (z := (p_c s / ch_w ch)%nat) in *.
    assert (b ≤ Z.of_nat x ∧ b ≤ Z.of_nat z) as [H1 H2].
    { destruct (decide (b ≤ Z.of_nat x ∧ b ≤ Z.of_nat z)) as [|Hno]; [done|]. exfalso. apply Hnear.
      exists x, z. split; [done|]. split; [done|]. split; [by rewrite <-Ec|]. fold b. lia. }
    unfold c_end. cbn [fst snd]. fold x z. destruct (p_d s) as [|[|[|[|d]]]]; [..|lia]; cbn [nth]; lia.
  Qed.
  Lemma c_end_bound r s : valid ch r s → 0 ≤ fst (c_end ch s) ≤ Z.of_nat w ∧ 0 ≤ snd (c_end ch s) ≤ Z.of_nat h.
  Proof.
    intros (Hin & Hd & Hr).
    pose proof (in_cell_lt ch Hwf _ _ Hin) as Hc. destruct (cell_coords ch _ Hc) as (Hw & Hx & Hz & Ec). fold w h in Hx, Hz.
    unfold c_end. cbn [fst snd]. fold w. destruct (p_d s) as [|[|[|[|d]]]]; [..|lia]; cbn [nth]; lia.
  Qed.

  Definition shifted (raw : list rawv) : list rawv := unborder b <$> raw.

  Lemma walk_traces r area tr raw :
    closed_walk ch r tr → inner r → Forall2 (vertex_of ch area) tr raw →
    traces ch r area (key_of <$> tr) (shifted raw) ∧ lattice_loop (shifted raw) ∧ lattice_loop raw.
  Proof.
    intros Hcl Hi HF. pose proof (walk_loop ch r area tr raw Hcl HF) as Hloop.
    assert (Hpos : ∀ k v, raw !! k = Some v → vpos (unborder b v).1 = (vx v.1 - b, vz v.1 - b)).
    { intros k v Hv. eapply Forall2_lookup_r in HF as (s & Hs & [Es _]); [|exact Hv].
      assert (valid ch r s) as Hvs. { apply Hcl. by eapply elem_of_list_lookup_2. }
      pose proof (c_end_clear r s Hvs Hi) as [H1 H2]. rewrite <-Es in H1, H2. apply unborder_pos; [apply Hbc|done|done]. }
    split; [|split; [|done]].
    - unfold traces, shifted. apply Forall2_fmap_l, Forall2_fmap_r. apply Forall2_same_length_lookup.
      split; [by eapply Forall2_length|]. intros k s v Hs Hv.
      pose proof (Forall2_lookup_lr _ _ _ _ _ _ HF Hs Hv) as (Es & Hbey & Hcorner).
      assert (valid ch r s ∧ edge ch s) as [(Hin & Hd & Hr) He]. { apply Hcl. by eapply elem_of_list_lookup_2. }
      unfold compose. unfold key_of. cbn [fst snd]. rewrite unborder_flag, unborder_y. split; [|split; [|done]].
      + split; [done|]. split; [done|]. intros j Hst Hj.
        destruct (proj1 (step_nbr ch Hwf _ _ _ j Hin Hd) Hst) as (c' & Hn). unfold edge, go in He. rewrite Hn in He.
        rewrite decide_True in He; [done|congruence].
      + specialize (Hpos k v Hv). unfold vpos in Hpos. injection Hpos as Ex Ez. fold b. rewrite Ex, Ez.
        pose proof (in_cell_lt ch Hwf _ _ Hin) as Hc. destruct (cell_coords ch _ Hc) as (Hw & Hx & Hz & Ec).
        exists (p_c s mod w)%nat, (p_c s / w)%nat. split; [done|]. split; [done|]. split; [unfold w; by rewrite <-Ec|].
        assert (vx v.1 = fst (c_end ch s) ∧ vz v.1 = snd (c_end ch s)) as [-> ->] by (by rewrite <-Es).
        unfold c_end. cbn [fst snd]. fold w. split; lia.
    - destruct Hloop as [Hne Hun]. split; [by destruct raw|]. intros k p q. unfold shifted. rewrite fmap_length, !list_lookup_fmap.
      intros (p' & Hp & ->)%fmap_Some (q' & Hq & ->)%fmap_Some. rewrite (Hpos _ _ Hp), (Hpos _ _ Hq).
      specialize (Hun k p' q' Hp Hq). unfold unit_apart, vpos in *. cbn [fst snd] in *. lia.
  Qed.

  Lemma loop_spread raw : lattice_loop raw → spread raw.
  Proof.
    intros [Hne Hun]. destruct raw as [|p raw]; [done|].
    assert (((0 + 1) mod length (p :: raw) < length (p :: raw))%nat) as Hlt by (apply Nat.mod_upper_bound; cbn; lia).
    destruct (lookup_lt_is_Some_2 (p :: raw) _ Hlt) as [q Hq]. exists p, q. split; [left|]. split; [by eapply elem_of_list_lookup_2|].
    specialize (Hun 0%nat p q eq_refl Hq). unfold unit_apart in Hun. intros E. rewrite E in Hun. lia.
  Qed.

  (** Why contour building may panic. *)
  Definition bad : Prop :=
    (¬ no_splitting len wall areas ∧ ¬ (0 ≤ len ≤ 255 ∧ Z.of_nat w ≤ 32767 ∧ Z.of_nat h ≤ 32767)) ∨ more_boundaries ch mx.
  Hypothesis Hlen : 0 ≤ len.

  Lemma simplify_walk r area tr raw :
    closed_walk ch r tr → Forall2 (vertex_of ch area) tr raw →
    ends bad (simplify_contour raw err len wall areas) (simplified raw (λ _ _, True)).
  Proof.
    intros Hcl HF. pose proof (walk_loop ch r area tr raw Hcl HF) as Hloop. pose proof (loop_spread raw Hloop) as Hsp.
    assert (0 < length raw)%nat as Hn. { destruct raw; [by destruct Hloop|cbn; lia]. }
    eapply ends_mono; [apply (simplify_spec raw Hn bad); [done|]|].
    - destruct ((0 <? len) && (wall || areas)) eqn:Esp; [|by right; right].
      apply andb_prop in Esp as [E1 E2].
      assert (¬ no_splitting len wall areas) as Hns. { intros [->|[-> ->]]; [lia|done]. }
      destruct (decide (0 ≤ len ≤ 255 ∧ Z.of_nat w ≤ 32767 ∧ Z.of_nat h ≤ 32767)) as [(H1 & H2 & H3)|Hno]; [|left; left; done].
      right. left. split; [done|]. intros p (k & Hk)%elem_of_list_lookup.
      eapply Forall2_lookup_r in HF as (s & Hs & [Es _]); [|exact Hk].
      assert (valid ch r s) as Hvs. { apply Hcl. by eapply elem_of_list_lookup_2. }
      pose proof (c_end_bound r s Hvs) as Hb. rewrite <-Es in Hb. unfold vpos in Hb. cbn [fst snd] in Hb. lia.
    - intros l (j0 & os & H1 & H2 & _ & H3). by exists j0, os.
  Qed.

  (** ** The invariant *)
  Definition cinv (SS : list (list (nat * nat))) (st : cstate) : Prop :=
    flags_inv ch (st_flags st) ∧ st_max st = mx ∧ Z.of_nat (length (st_table st)) = mx ∧
    st_count st = length SS ∧ Z.of_nat (length SS) ≤ mx ∧ NoDup (concat SS) ∧
    (∀ i d, (i, d) ∈ concat SS → bit (st_flags st) i d = false) ∧
    (∀ k sides, SS !! k = Some sides → ∃ ct, st_table st !! k = Some ct ∧ outlines ch ct sides).

  Lemma outlines_boundary ct sides : outlines ch ct sides → boundary ch (ct_reg ct) sides.
  Proof. intros (H1 & H2 & H3 & _). split; [done|]. by exists (ct_area ct), (ct_raw ct). Qed.

  Lemma cinv_flags SS st flags' :
    cinv SS st → flags_inv ch flags' →
    (∀ i d, bit flags' i d = true → bit (st_flags st) i d = true) →
    cinv SS (CStt flags' (st_table st) (st_count st) (st_max st)).
  Proof.
    intros (H1 & H2 & H3 & H4 & H5 & H6 & H7 & H8) Hf Hb. split; [done|]. do 5 (split; [done|]). split; [|done].
    intros i d Hin. cbn. destruct (bit flags' i d) eqn:E; [|done]. apply Hb in E. rewrite H7 in E by done. done.
  Qed.

  Lemma contour_span_spec c i SS st :
    in_cell ch c i → cinv SS st →
    ends bad (contour_span ch err len wall areas (c mod w) (c / w) i st) (λ st', ∃ SS', cinv SS' st').
  Proof.
    intros Hin Hinv. pose proof Hinv as (Hfl & Hmax & Htab & Hcnt & Hle & Hnd & Hcl & Hct).
    pose proof Hfl as ((Hfll & Hf15) & _). unfold contour_span.
    pose proof (in_cell_bound ch Hwf _ _ Hin) as Hi. rewrite <-Hfll in Hi.
    destruct (lookup_lt_is_Some_2 _ _ Hi) as [f Hf]. rewrite (get_some _ _ _ Hf). cbn [obind].
    destruct (span_some ch Hwf _ _ Hin) as (sp & Hsp & Hr). pose proof (Hr16 _ _ Hr) as Hr16'.
    destruct ((f =? 0) || (f =? 15)) eqn:Ef.
    - rewrite put_lt by done. cbn [obind ends]. exists SS. apply cinv_flags; [done| |].
      + destruct (decide (f = 15)) as [->|Hne]; [by eapply single_inv|]. assert (f = 0) as -> by lia. by rewrite list_insert_id.
      + intros i' d'. unfold bit. destruct (decide (i = i')) as [<-|Hne].
        * rewrite list_lookup_insert by done. cbn [from_option id]. by rewrite Z.testbit_0_l.
        * by rewrite list_lookup_insert_ne.
    - rewrite (get_some _ _ _ Hsp). cbn [obind].
      destruct ((cs_reg sp =? REG_NONE) || is_border (cs_reg sp)) eqn:Enb; [by exists SS|].
      apply (inner_iff ch) in Enb; [|done]. destruct (area_some ch Hwf _ _ Hin) as (area & Ha). rewrite (get_some _ _ _ Ha). cbn [obind].
      eapply ends_bind.
      { apply ends_runs. eapply (walk_spec ch Hwf Hw16 Hh16 Hsym Hr16 c i (cs_reg sp) f area); [done|done|done|done|lia|done|].
        by apply Hsm. }
      intros [flags' raw] (Hfl' & tr & Hwalk & _ & Hset & Hbits & HF & _).
      eapply ends_bind; [by eapply simplify_walk|]. intros l (j0 & os & Hord & Hkeep & _ & ->).
      set (fv := λ o, _).
      eapply ends_bind.
      { apply ends_runs. unfold remove_degenerate_segments. apply (remove_degenerate_spec fv _ os 0); [exact (proj2 (proj2 Hord))|].
        rewrite fmap_length. lia. }
      intros verts (os' & -> & Hinc & Hsub & Hpos & _).
      assert (Hst : cinv SS (CStt flags' (st_table st) (st_count st) (st_max st))).
      { apply cinv_flags; [done|done|]. intros i' d' Hb'. rewrite Hbits in Hb'. by apply andb_prop in Hb' as [? _]. }
      destruct (Nat.ltb_spec (length (fv <$> os')) 3) as [Hshort|Hlong]; [by exists SS|].
      set (ct := Ct _ _ _ _).
      pose proof (walk_traces (cs_reg sp) area tr raw Hwalk Enb HF) as (Htr & Hl1 & Hl2).
      assert (Hn : (0 < length raw)%nat). { destruct raw; [by destruct Hl2|cbn; lia]. }
      assert (Hout : outlines ch ct (key_of <$> tr)).
      { split; [done|]. split; [done|]. split; [done|]. split; [cbn; by rewrite fmap_length|]. cbn [ct ct_verts ct_raw]. split; [|split; [|exists i; split; [|done]; unfold region_of; by rewrite Hsp]].
        - exists j0, os'. split; [done|]. split.
          + intros x Hx. rewrite fmap_length. apply (proj1 (proj2 Hord)). by apply Hsub.
          + rewrite <-list_fmap_compose, <-list_fmap_compose. apply Forall2_fmap_r, Forall2_same_length_lookup. split; [done|].
            intros k o o' Ho Ho'. assert (o' = o) as -> by congruence. rewrite at_loop_fmap, (at_loop_pts raw Hn). cbn [fmap option_fmap option_map].
            unfold compose. f_equal. by apply unborder_vertex.
        - intros Hp j p Hch Hj.
          assert (Hp' : has_portal raw).
          { destruct Hp as (q & (q' & -> & Hq)%elem_of_list_fmap & E). exists q'. split; [done|]. by rewrite unborder_flag in E. }
          assert (Hch' : changes raw j).
          { destruct Hch as (u & v & Eu & Ev & Huv). rewrite at_loop_fmap in Eu, Ev. apply fmap_Some in Eu as (u' & Eu & ->).
            apply fmap_Some in Ev as (v' & Ev & ->). exists u', v'. rewrite !unborder_flag in Huv. done. }
          destruct (keeps_spec raw Hn j0 os Hkeep Hp' j Hch') as (o & Ho & Eo).
          assert (Hne : os' ≠ []). { intros ->. cbn in Hlong. lia. }
          destruct (Hpos Hne o Ho) as (o' & Ho' & Eo').
          exists (unborder b (fv o')). split; [apply elem_of_list_fmap; exists (fv o'); split; [done|]; apply elem_of_list_fmap; by exists o'|].
          rewrite at_loop_fmap, (at_loop_pts raw Hn) in Hj. cbn in Hj. injection Hj as <-. apply unborder_same. rewrite Eo'.
          unfold fv. cbn [fst]. by rewrite Eo. }
      assert (Hnd' : NoDup (concat (SS ++ [key_of <$> tr]))).
      { rewrite concat_app. cbn [concat]. rewrite app_nil_r. apply NoDup_app. split; [done|]. split.
        - intros [i' d'] Hx (s & E & Hs)%elem_of_list_fmap. apply Hcl in Hx. specialize (Hset _ Hs). unfold bit_at in Hset.
          injection E as -> ->. congruence.
        - apply NoDup_fmap_2_strong; [|apply Hwalk]. intros s t Hs Ht E. destruct Hwalk as (_ & _ & Hv & _).
          by apply (key_inj ch Hwf (cs_reg sp)); [apply Hv|apply Hv|]. }
      unfold store_contour. cbn [st_max st_count st_table st_flags]. rewrite Hmax, Hcnt.
      destruct (Z.leb_spec mx (Z.of_nat (length SS))) as [Hfull|Hroom].
      + assert (bad) as Hbad.
        { right. exists (SS ++ [key_of <$> tr]). rewrite app_length. cbn [length]. split; [lia|]. split; [done|].
          intros sides [Hs| ->%elem_of_list_singleton]%elem_of_app.
          - apply elem_of_list_lookup in Hs as (k & Hk). destruct (Hct _ _ Hk) as (ct' & _ & Ho). exists (ct_reg ct'). by apply outlines_boundary.
          - exists (ct_reg ct). by apply outlines_boundary. }
        unfold chk_u16, chk. destruct (_ && _); cbn [obind]; [|done].
        unfold put. rewrite lookup_ge_None_2; [done|]. rewrite take_length. lia.
      + cbn [obind]. rewrite put_lt by lia. cbn [obind ends]. exists (SS ++ [key_of <$> tr]).
        destruct Hst as (_ & _ & _ & _ & _ & _ & Hcl' & _). cbn [st_flags] in Hcl'.
        split; [done|]. split; [done|]. split; [cbn [st_table]; by rewrite insert_length|]. rewrite app_length. cbn [length st_count].
        split; [lia|]. split; [lia|]. split; [done|]. split.
        * intros i' d'. cbn [st_flags]. rewrite concat_app. cbn [concat]. rewrite app_nil_r. intros [Hx|Hx]%elem_of_app; [by apply Hcl'|].
          rewrite Hbits, bool_decide_eq_true_2 by done. by rewrite andb_false_r.
        * intros k sides Hk. cbn [st_table]. apply lookup_app_Some in Hk as [Hk|[Hge Hk]].
          -- destruct (Hct _ _ Hk) as (ct' & H1 & H2). exists ct'. split; [|done]. rewrite list_lookup_insert_ne; [done|].
             apply lookup_lt_Some in Hk. lia.
          -- destruct (k - length SS)%nat as [|m] eqn:Em; [|done]. injection Hk as <-. exists ct.
             replace k with (length SS) by lia. split; [|done]. apply list_lookup_insert. lia.
  Qed.

  Lemma build_spec :
    2 * b ≤ Z.of_nat w → 2 * b ≤ Z.of_nat h →
    ends bad (build_contours ch err len wall areas) (λ cs, ∃ SS,
      Z.of_nat (length (ks_contours cs)) ≤ mx ∧ NoDup (concat SS) ∧ Forall2 (outlines ch) (ks_contours cs) SS ∧
      ks_w cs = Z.of_nat w - 2 * b ∧ ks_h cs = Z.of_nat h - 2 * b).
  Proof.
    intros H1 H2. pose proof (proj1 Hbc) as Hb0. fold b in Hb0. unfold build_contours. fold b w h mx.
    unfold chk_u16, U16_MAX. rewrite (chk_in 0 65535 (b * 2)) by (fold w in Hw16; lia). cbn [obind].
    rewrite chk_in by (fold w in Hw16; lia). cbn [obind]. rewrite chk_in by (fold h in Hh16; lia). cbn [obind].
    eapply ends_bind; [apply ends_runs, mark_boundaries_spec; done|]. intros flags [Hok Hg]. cbv beta in Hok, Hg.
    eapply ends_bind.
    - apply (ends_cells bad (λ _ st, ∃ SS, cinv SS st)).
      + exists []. split; [by apply marked_inv|]. split; [done|]. cbn [st_table]. rewrite repeat_length. split; [lia|]. split; [done|].
        split; [cbn; lia|]. split; [constructor|]. split; [by intros i d ?%elem_of_nil|done].
      + intros c st Hc Hst. destruct (lookup_lt_is_Some_2 (ch_cells ch) c) as [cell Hcell]. { by rewrite (cells_len ch Hwf). }
        unfold w. rewrite (cell_at_some ch c cell Hc Hcell). cbn [obind]. fold w. apply (ends_keep bad (λ st, ∃ SS, cinv SS st)); [done|].
        intros i st' Hi (SS & HSS). apply (contour_span_spec c i SS); [|done]. by exists cell.
    - intros st (SS & _ & _ & Htab & Hcnt & Hle & Hnd & _ & Hct). cbn [ends ks_contours ks_w ks_h]. exists SS.
      rewrite take_length. split; [lia|]. split; [done|]. split; [|split; lia].
      apply Forall2_same_length_lookup. split; [rewrite take_length; lia|]. intros k ct sides Hk Hs.
      destruct (Hct _ _ Hs) as (ct' & Hk' & Ho). assert (ct = ct') as ->; [|done].
      assert (k < st_count st)%nat by (apply lookup_lt_Some in Hs; lia). rewrite lookup_take in Hk by done. congruence.
  Qed.
End cset.
