(** Property C76: the boundaries of regions enclose exactly their regions. *)
From Verif Require Import Base ModelMath ModelHeightfield ModelCompact ModelDistance ModelRegions
  ModelContours SpecHeightfield SpecCompact SpecDistance SpecRegions SpecContours SpecOutline
  CompactProofs GraphProofs FlowProofs OrbitProofs ContourWalkProofs SimplifyProofs ContourSetProofs OutlineProofs
  ExampleFields PropertiesRegions PropertiesContours.
Local Open Scope Z_scope.

(** ** C76 *)
(** There are boundaries of regions, each a closed loop of unit steps along
    sides of its region that no other boundary shares, of which the contours are
    the simplified ones in order. Every side of a region is in one of them, and is
    followed by the next side around the corner. Along another region of the same area
    a contour leads straight from end to end. A boundary gets no contour only if it is that of a
    single span or if two positions are enough to stand for it. For every region,
    the boundaries go round each cell of the field as often as the cell has spans
    of the region. *)
Theorem C76_boundaries_enclose :
  ∀ ch err len wall areas cs, contourable ch → 0 ≤ len →
  build_contours ch err len wall areas = Done cs →
  ∃ LL : list outline, omap ol_contour LL = ks_contours cs ∧ Forall (outlined ch (f_mul err err)) LL ∧
    NoDup (concat (ol_sides <$> LL)) ∧
    (∀ r i d, inner r → side ch r i d → ∃ o, o ∈ LL ∧ ol_reg o = r ∧ (i, d) ∈ ol_sides o) ∧
    ∀ r x z, inner r → (x < ch_w ch)%nat → (z < ch_h ch)%nat →
      total_winding r (Z.of_nat x) (Z.of_nat z) LL = Z.of_nat (layers ch r (x + z * ch_w ch)).
Proof. intros ch err len wall areas cs [Hwf [Hw Hh] Hs Hr Hb Hm] Hl E. by eapply build_outline. Qed.

Lemma positive_term {A} (f : A → Z) l : 0 < Zsum (f <$> l) → ∃ a, a ∈ l ∧ 0 < f a.
Proof.
  induction l as [|a l IH]; [done|]. rewrite fmap_cons. unfold Zsum in *. cbn [foldr]. intros H.
  destruct (decide (0 < f a)); [exists a; split; [left|done]|]. destruct IH as (b & Hb & Hf); [lia|]. exists b. split; [by right|done].
Qed.

(** Every span of a region lies inside a contour of that region, or inside a
    boundary of it that is that of a single span or flat. *)
Theorem C76_every_span_enclosed :
  ∀ ch err len wall areas cs i r x z, contourable ch → 0 ≤ len →
  build_contours ch err len wall areas = Done cs →
  in_cell ch (x + z * ch_w ch) i → (x < ch_w ch)%nat → region_of ch i = Some r → inner r →
  ∃ o, outlined ch (f_mul err err) o ∧ ol_reg o = r ∧ 0 < winding (Z.of_nat x) (Z.of_nat z) (ol_loop o) ∧
    ∀ ct, ol_contour o = Some ct → ct ∈ ks_contours cs.
Proof.
  intros ch err len wall areas cs i r x z Hc Hl E Hin Hx Hr Hi.
  destruct (C76_boundaries_enclose _ _ _ _ _ _ Hc Hl E) as (LL & Hcs & Hok & _ & _ & Hw).
  assert (z < ch_h ch)%nat as Hz. { pose proof (in_cell_lt ch (ca_wf _ Hc) _ _ Hin). destruct (decide (z < ch_h ch)%nat); [done|nia]. }
  specialize (Hw r x z Hi Hx Hz).
  assert (0 < layers ch r (x + z * ch_w ch))%nat as Hpos.
  { destruct Hin as (cell & Hcell & Hi'). unfold layers. rewrite Hcell.
    assert (i ∈ filter (λ i, region_of ch i = Some r) (index_range cell)) as H by (by apply elem_of_list_filter).
    destruct (filter _ _); [by apply elem_of_nil in H|cbn; lia]. }
  unfold total_winding in Hw. destruct (positive_term (λ o, winding (Z.of_nat x) (Z.of_nat z) (ol_loop o)) (filter (λ o, ol_reg o = r) LL)) as (o & Ho & Hp); [lia|].
  apply elem_of_list_filter in Ho as [Er Ho]. exists o. rewrite Forall_forall in Hok. split; [by apply Hok|]. split; [done|]. split; [done|].
  intros ct Ect. rewrite <-Hcs. apply elem_of_list_omap. by exists o.
Qed.

(** ** Examples *)
(** Around its hole, the 7 x 7 floor has a second boundary, that goes the other
    way round: cells of the floor are gone round once, the hole not at all. *)
Example C76_hypotheses_met :
  contourable (snd floor7_run) ∧
  sizes (build_contours (snd floor7_run) (f_of_Z 0) 0 true false) = Some [(28, 4); (4, 4)]%nat ∧
  layers (snd floor7_run) 1 0 = 1%nat ∧ layers (snd floor7_run) 1 24 = 0%nat ∧ region_of (snd floor7_run) 0 = Some 1 ∧ inner 1 ∧
  match build_contours (snd floor7_run) (f_of_Z 0) 0 true false with
  | Done cs => (λ ct, (winding 0 0 (vpos ∘ fst <$> ct_raw ct), winding 3 3 (vpos ∘ fst <$> ct_raw ct))) <$> ks_contours cs = [(1, 1); (0, -1)]
  | _ => False
  end.
Proof.
  split; [apply floor7_contourable|]. split; [by vm_compute|]. do 3 (split; [by vm_compute|]). split; [split; [done|unfold border_flag; lia]|].
  vm_compute. reflexivity.
Qed.

(** Not every region gets a contour: a single isolated cell, kept because there
    is no minimum region size, does not. *)
Definition islet : chf :=
  flat 9 9 ((λ c, if ((1 <=? c mod 9) && (c mod 9 <=? 5) && (1 <=? c / 9) && (c / 9 <=? 5) || (c =? 70))%nat then 255 else 0) <$> seq 0 81).
Definition islet_run : chf * chf := Eval vm_compute in run_of islet 0 0 20.
(** Nor does a region that is enclosed by one other: here eight pillars stand
    around the middle of a 21 x 21 floor, where there is a region of 38 cells. Its
    boundary, and that of the hole that it leaves in the outer region, are both
    flat, so that the contour of the outer region covers it. *)
Definition pillars : chf :=
  flat 21 21 ((λ c, if existsb (λ p, (p =? c)%nat) [215; 225; 115; 325; 132; 308; 300; 140]%nat then 0 else 255) <$> seq 0 441).
Definition pillars_run : chf * chf := Eval vm_compute in run_of pillars 0 8 20.
Definition regions_of (o : outcome contour_set) : option (list Z) :=
  match o with Done cs => Some (ct_reg <$> ks_contours cs) | _ => None end.
Theorem C76_every_region_refuted : ∃ ch1 ch2, contourable ch1 ∧ contourable ch2 ∧
  region_of ch1 70 = Some 2 ∧ regions_of (build_contours ch1 (f_of_Z 0) 0 true false) = Some [1] ∧
  length (filter (λ r, r = 1) (region_list ch2)) = 38%nat ∧ regions_of (build_contours ch2 (f_of_Z 1) 0 true false) = Some [2].
Proof.
  exists (snd islet_run), (snd pillars_run). split.
  { apply (run_contourable (fst islet_run) _ 0 0 20); [by vm_compute|split; by vm_compute|by vm_compute|split; by vm_compute|done|by vm_compute|by vm_compute]. }
  split.
  { apply (run_contourable (fst pillars_run) _ 0 8 20); [by vm_compute|split; by vm_compute|by vm_compute|split; by vm_compute|done|by vm_compute|by vm_compute]. }
  do 3 (split; [by vm_compute|]). by vm_compute.
Qed.

Print Assumptions C76_boundaries_enclose.
Print Assumptions C76_every_span_enclosed.
Print Assumptions C76_every_region_refuted.
