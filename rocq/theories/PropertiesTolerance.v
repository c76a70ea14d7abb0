(** C32 in real numbers: the tolerance of simplified contours. *)
From Coq Require Import Reals Lra.
From Verif Require Import Base ModelMath ModelHeightfield ModelCompact ModelRegions ModelContours SpecCompact SpecRegions SpecContours SpecTolerance FloatReal FloatClipProofs PropertiesRegions ExampleFields
  ContourSetProofs ToleranceProofs PropertiesContours.
From Coq Require Import Floats.SpecFloat.
Local Open Scope R_scope.

(** Contours in grid coordinates of at most [n]: without splitting, every raw
    vertex on a wall or an area border is at most the tolerance away from the
    segment that replaces it, up to one part in a million of the tolerance and of
    the size of the grid. *)
Theorem C32_tolerance :
  ∀ raw err len wall areas n, spread raw → (0 <= len)%Z → no_splitting len wall areas →
  coords_upto raw n → (1 <= n <= 65535)%Z → fin err → 0 <= f_R err <= 1048576 →
  ∃ l j0 os, simplify_contour raw err len wall areas = Done l ∧ subloop raw j0 os (fst <$> l) ∧
    tolerates raw (f_R err * (1 + / 1048576) + IZR n / 1048576) j0 os.
Proof.
  intros raw err len wall areas n Hsp Hl Hno Hc Hn Fe He.
  destruct (C32_simplification raw err len wall areas Hsp Hl (or_introl Hno)) as (l & j0 & os & E & Hsub & _ & _ & Hw & _).
  exists l, j0, os. split; [done|]. split; [done|]. intros x e o a b p Hsu Hxo Ha Hb Hp Hb0.
  pose proof (Hw Hno x e o a b p Hsu Hxo Ha Hb Hp Hb0) as HL.
  assert (∀ j (q : rawv), at_loop raw j = Some q → (0 <= vx q.1 <= n)%Z ∧ (0 <= vz q.1 <= n)%Z) as Hin.
  { intros j q Hq. apply Hc. unfold at_loop in Hq. by eapply elem_of_list_lookup_2. }
  destruct (Hin _ _ Ha), (Hin _ _ Hb), (Hin _ _ Hp). by apply (deviation_off n).
Qed.

(** The contours of a field without splitting: no vertex of the walls and area
    borders that were followed is further than the tolerance from the contour, up
    to one part in a million of the tolerance and of the size of the field. *)
Theorem C32_contours_follow_walls :
  ∀ ch err len wall areas cs ct, contourable ch → (0 <= len)%Z → no_splitting len wall areas →
  f_valid err → FloatReal.f_finite err → 0 <= f_R err <= 1048576 →
  build_contours ch err len wall areas = Done cs → ct ∈ ks_contours cs →
  follows_walls ct (f_R err * (1 + / 1048576) + IZR (Z.max (Z.of_nat (ch_w ch)) (Z.of_nat (ch_h ch))) / 1048576).
Proof.
  intros ch err len wall areas cs ct Hc Hl Hno Hv Hf He E Hct.
  exact (build_near ch Hc err len wall areas Hl Hno (conj Hv Hf) He cs E ct Hct).
Qed.

(** A field with a contour that leaves out a vertex of a wall. *)
Example C32_contours_follow_walls_ex : ∃ cs ct p, contourable (snd notch_run) ∧ no_splitting 0 true false ∧
  f_valid (f_of_Z 1) ∧ FloatReal.f_finite (f_of_Z 1) ∧ 0 <= f_R (f_of_Z 1) <= 1048576 ∧
  build_contours (snd notch_run) (f_of_Z 1) 0 true false = Done cs ∧ ct ∈ ks_contours cs ∧
  p ∈ ct_raw ct ∧ beyond_region p.2 = 0%Z ∧ ¬ ∃ v, v ∈ ct_verts ct ∧ vpos v.1 = vpos p.1.
Proof.
  exists notch_contours. destruct (ks_contours notch_contours) as [|ct l] eqn:El; [by vm_compute in El|].
  exists ct, (V 4 0 0, 0%Z). split.
  { apply (PropertiesContours.run_contourable (fst notch_run) _ 0 0 1000); [by vm_compute|split; by vm_compute|by vm_compute|split; by vm_compute|done|by vm_compute|by vm_compute]. }
  split; [by left|]. split; [by vm_compute|]. split; [done|]. split; [rewrite (proj1 (FloatSpotProofs.f_of_Z_R 1 ltac:(lia))); lra|].
  split; [by vm_compute|]. vm_compute in El. injection El as <- <-. split; [left|]. cbn [ct_raw ct_verts]. split.
  { apply elem_of_list_lookup. exists 23%nat. by vm_compute. }
  split; [by vm_compute|]. intros (v & Hv & E).
  repeat (apply elem_of_cons in Hv as [->|Hv]; [by vm_compute in E|]). by apply elem_of_nil in Hv.
Qed.

(** A loop with bumps meets the hypotheses of the first theorem, and most of
    its vertices are left out. *)
Example C32_tolerance_ex : spread bumpy ∧ no_splitting 0 true false ∧ coords_upto bumpy 64 ∧ fin (f_of_Z 1) ∧
  0 <= f_R (f_of_Z 1) <= 1048576 ∧ ∃ l, simplify_contour bumpy (f_of_Z 1) 0 true false = Done l ∧ (length l < length bumpy)%nat.
Proof.
  split; [apply (loop_spread floor7), lattice_loop_b_ok; by vm_compute|]. split; [by left|]. split.
  { intros p Hp. assert (E : forallb (λ p : rawv, (0 <=? vx p.1) && (vx p.1 <=? 64) && (0 <=? vz p.1) && (vz p.1 <=? 64))%Z bumpy = true) by (by vm_compute).
    apply (forallb_elem _ _ p) in E; [|done]. lia. }
  split; [split; by vm_compute|]. split; [rewrite (proj1 (FloatSpotProofs.f_of_Z_R 1 ltac:(lia))); lra|].
  eexists. split; [by vm_compute|]. vm_compute. lia.
Qed.

Print Assumptions C32_tolerance.
Print Assumptions C32_contours_follow_walls.
