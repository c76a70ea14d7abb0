(** Specification of a session of the editor: what the checkboxes ask for. *)
From Verif Require Import Base ModelMath ModelHeightfield ModelContours ModelPoly ModelTriMesh ModelDetail SpecPoly ModelExport ModelView SpecView.
Local Open Scope Z_scope.

(** A navmesh that can be drawn. *)
Definition drawable (n : pmesh * dmesh) : Prop :=
  (∃ l s, poly_lines n.1 = Done l ∧ poly_surface n.1 = Done s ∧ poly_picture (pm_nvp n.1) n.1 l s) ∧
  (∃ l s, detail_lines n.2 = Done l ∧ detail_surface n.2 = Done s ∧ detail_picture n.2 l s).
(** A scene whose affectors have no index out of range. *)
Definition loadable (r : response) : Prop :=
  Forall (λ a : list f32 * trimesh, Forall (λ i : Z * Z * Z, Forall (λ j, 0 <= j < Z.of_nat (length (tm_verts a.2))) [i.1.1; i.1.2; i.2]) (tm_idx a.2)) (rs_aff r).
Definition sound (e : event) : Prop :=
  match e with EBuild n => drawable n | ELoad r => loadable r | _ => True end.

(** An entity that shows nothing. *)
Definition blank (v : view) : Prop := vw_visible v = false ∧ vw_lines v = [].
Definition shows_poly (m : pmesh) (v : view) : Prop :=
  vw_visible v = true ∧ ∃ s, vw_surface v = Some s ∧ poly_picture (pm_nvp m) m (vw_lines v) s.
Definition shows_detail (d : dmesh) (v : view) : Prop :=
  vw_visible v = true ∧ ∃ s, vw_surface v = Some s ∧ detail_picture d (vw_lines v) s.

(** The screen agrees with the checkboxes and the latest navmesh. *)
Record as_chosen (s : session) : Prop := {
  ac_poly : if ses_on s GPoly then ∀ n, ses_mesh s = Some n → shows_poly n.1 (ses_poly s) else blank (ses_poly s);
  ac_detail : if ses_on s GDetail then ∀ n, ses_mesh s = Some n → shows_detail n.2 (ses_detail s) else blank (ses_detail s);
  ac_nothing : ses_mesh s = None → blank (ses_poly s) ∧ blank (ses_detail s);
  ac_affectors : Forall (λ a, if ses_on s GAffector then ∃ t, trimesh_of a.1 = Some t ∧ affector_picture t a.2 else a.2 = []) (ses_affs s);
  ac_visuals : Forall (λ v, v.2 = ses_on s GVisual) (ses_vis s)
}.

(** A frame runs all systems, in some order. *)
Definition frame (ys : list sys) : Prop := ∀ g, SDraw g ∈ ys ∧ SHide g ∈ ys.
(** After every load some checkbox was clicked. *)
Definition clicked (h : list event) : Prop := ∀ h1 r h2, h = h1 ++ ELoad r :: h2 → ∃ g, EToggle g ∈ h2.
