(** Specification vocabulary for common boundaries of two regions. *)
From Verif Require Import Base ModelMath ModelHeightfield SpecHeightfield ModelCompact SpecCompact
  SpecDistance SpecRegions ModelContours SpecContours SpecOutline.
Local Open Scope Z_scope.

(** Side [s] of region [r] has a span of region [r'] beyond it. *)
Definition facing (ch : chf) (r r' : Z) (s : nat * nat) : Prop :=
  side ch r s.1 s.2 ∧ ∃ j, step ch s.1 s.2 j ∧ region_of ch j = Some r'.
(** The same side, seen from the span beyond it. *)
Definition opposite (ch : chf) (s t : nat * nat) : Prop := step ch s.1 s.2 t.1 ∧ t.2 = ((s.2 + 2) mod 4)%nat.

(** Around the corner at the end of side [d] of span [i] there is one floor: both
    ways to the diagonal lead to the same span. And if both neighbours there are of
    one other region, so is the span between them. *)
Definition smooth_corner (ch : chf) (i d : nat) : Prop :=
  let e := ((d + 1) mod 4)%nat in
  ∀ a b, step ch i d a → step ch i e b →
    (∀ c, step ch a e c ↔ step ch b d c) ∧
    (region_of ch a = region_of ch b → region_of ch i ≠ region_of ch a → ∃ c, step ch a e c ∧ region_of ch c = region_of ch a).
Definition meets_evenly (ch : chf) (r r' : Z) : Prop := ∀ s, facing ch r r' s → smooth_corner ch s.1 s.2.
(** All spans of the region have the same area. *)
Definition one_area (ch : chf) (r area : Z) : Prop := ∀ i, region_of ch i = Some r → ch_areas ch !! i = Some area.

(** In the raw loop, vertices [j] and [j + m] are the ends of a run along region [r']. *)
Definition run_along (raw : list rawv) (r' : Z) (j m : nat) (p q : Z * Z) : Prop :=
  portal_run raw j m ∧ (∃ v, at_loop raw (j + 1) = Some v ∧ beyond_region v.2 = r') ∧
  (∃ v, at_loop raw j = Some v ∧ vpos v.1 = p) ∧ (∃ v, at_loop raw (j + m) = Some v ∧ vpos v.1 = q).
