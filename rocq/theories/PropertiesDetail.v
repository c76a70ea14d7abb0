(** Properties of detail meshes: C41, C58-C63. *)
From Verif Require Import Base FlowProofs ModelMath FloatOrder ModelHeightfield ModelCompact ModelContours ModelPoly ModelTriMesh ModelMarkArea ModelDetail SpecDetail
  DetailHullProofs DetailEdgeProofs DetailTessProofs DetailDelaunayProofs DetailPolyProofs DetailMeshProofs DetailHeightProofs DetailLimitProofs.
Local Open Scope Z_scope.

(** ** C41: the triangulation of an outline *)
Theorem C41_hull :
  ∀ verts hull n nin, (3 ≤ n ≤ length hull)%nat →
  (∀ i h, hull !! i = Some h → (i < n)%nat → (h < length verts)%nat ∧ (h < 256)%nat) →
  ∃ ts, triangulate_hull verts n hull nin = Done ts ∧ length ts = (n - 2)%nat ∧
    (∀ t, t ∈ ts → ∀ x, x ∈ corners t → x ∈ take n hull) ∧ covers (take n hull) ts.
Proof. intros verts hull n nin [H3 Hl] Hv. by apply triangulate_hull_spec. Qed.
Print Assumptions C41_hull.
(** An outline with an extra vertex 4 on the edge from 3 to 0. *)
Definition quad5 : list vec3 := [scaled f_one f_one 0 0 0; scaled f_one f_one 0 0 8; scaled f_one f_one 8 0 8; scaled f_one f_one 8 0 0; scaled f_one f_one 4 2 0].
Example C41_ex : (∀ i h, [4; 0; 1; 2; 3]%nat !! i = Some h → (i < 5)%nat → (h < length quad5)%nat ∧ (h < 256)%nat) ∧
  triangulate_hull quad5 5 [4; 0; 1; 2; 3]%nat 4 = Done [(0, 1, 4); (1, 3, 4); (1, 2, 3)]%nat.
Proof.
  split; [|by vm_compute]. intros i h Hi _. assert (h ∈ [4; 0; 1; 2; 3]%nat) as Hin by (by eapply elem_of_list_lookup_2).
  rewrite !elem_of_cons, elem_of_nil in Hin. cbn. lia.
Qed.

(** ** The example: a floor with a hill in the middle and a step at the edge *)
Definition hill_y (x z : nat) : Z :=
  if (3 <=? x)%nat && (x <=? 5)%nat && (3 <=? z)%nat && (z <=? 5)%nat then 4 else if (z =? 0)%nat && (x =? 6)%nat then 3 else 0.
Definition hill : chf :=
  mkChf 9 9 2 1 0 0 1 geo0 ((λ i, CC i 1) <$> seq 0 81) ((λ i, CS (hill_y (i mod 9) (i / 9)) 1 16777215) <$> seq 0 81) [] (repeat 63 81).
Definition hill_mesh : pmesh :=
  PMesh [V 0 0 0; V 0 0 8; V 8 0 8; V 8 0 0] [[0; 1; 2; 65535; 65535; 65535]; [0; 2; 3; 65535; 65535; 65535]] [] [1; 1] [1; 1] [63; 63] 6 geo0 0 f_one.
Definition grid_of (v : vec3) : Z * Z * Z := (f_to_i32 (v_x v), f_to_i32 (v_y v), f_to_i32 (v_z v)).
Example hill_detail : ∃ o, detail_new 100 hill_mesh hill f_two f_one = Done o ∧
  dm_meshes o = [SubM 0 8 0 7; SubM 8 11 7 11] ∧
  take 7 (dm_tris o) = [(1, 2, 7); (2, 3, 7); (3, 4, 7); (4, 5, 7); (5, 6, 7); (6, 0, 1); (1, 7, 6)]%nat ∧
  take 7 (dm_flags o) = [1; 1; 1; 1; 1; 5; 0] ∧
  take 8 (grid_of <$> dm_verts o) = [(0, 1, 0); (0, 1, 8); (8, 1, 8); (6, 1, 6); (5, 5, 5); (4, 5, 4); (2, 1, 2); (3, 1, 5)].
Proof. eexists. split; [vm_compute; reflexivity|]. split_and!; vm_compute; reflexivity. Qed.
Example hill_hypotheses : pm_verts hill_mesh ≠ [] ∧ Z.of_nat (length (pm_polys hill_mesh)) * 255 < 4294967296 ∧
  (∀ row, row ∈ pm_polys hill_mesh → ∃ l, live row l ∧ (3 ≤ length l)%nat).
Proof.
  split; [done|]. split; [by vm_compute|]. intros row Hr. cbn [pm_polys hill_mesh] in Hr. rewrite !elem_of_cons, elem_of_nil in Hr.
  destruct Hr as [-> | [-> | []]].
  - exists [0; 1; 2]. split; [|done]. exists [65535; 65535; 65535]. split; [done|]. split; [by rewrite !not_elem_of_cons; split_and!; [done|done|done|apply not_elem_of_nil]|]. right. eauto.
  - exists [0; 2; 3]. split; [|done]. exists [65535; 65535; 65535]. split; [done|]. split; [by rewrite !not_elem_of_cons; split_and!; [done|done|done|apply not_elem_of_nil]|]. right. eauto.
Qed.

(** ** C58: the sample distance *)

(** [detail_new] returns a result for a nonempty mesh only if the distance is
    positive. The documented value 0 ("no sampling") never works. *)
Theorem C58_sample_distance :
  ∀ fuel m ch dist err o, pm_verts m ≠ [] → pm_polys m ≠ [] →
  detail_new fuel m ch dist err = Done o → f_lt f_zero dist = true.
Proof. apply detail_new_dist. Qed.
Print Assumptions C58_sample_distance.
Theorem C58_no_sampling_refuted :
  (∀ fuel m ch err o, pm_verts m ≠ [] → pm_polys m ≠ [] → detail_new fuel m ch f_zero err ≠ Done o) ∧
  detail_new 100 hill_mesh hill f_zero f_one = Panicked ∧ ∃ o, detail_new 100 hill_mesh hill f_two f_one = Done o.
Proof.
  split; [|split; [by vm_compute|eexists; vm_compute; reflexivity]].
  intros fuel m ch err o Hv Hp H. by apply detail_new_dist in H.
Qed.
Print Assumptions C58_no_sampling_refuted.

(** ** C59: the sub-mesh table *)
Lemma live_fun row l l' : live row l → live row l' → l = l'.
Proof.
  revert row l'. induction l as [|a l IH]; intros row l' (r & -> & Hn & Hr) (r' & E & Hn' & Hr').
  - destruct l' as [|b l']; [done|]. exfalso. cbn in E. destruct Hr as [-> | (q & ->)]; [done|]. injection E as <- _. apply Hn'. apply elem_of_list_here.
  - destruct l' as [|b l'].
    + exfalso. cbn in E. destruct Hr' as [-> | (q & ->)]; [done|]. injection E as -> _. apply Hn. apply elem_of_list_here.
    + cbn in E. injection E as -> E. f_equal. apply (IH (l ++ r)).
      * exists r. split; [done|]. split; [|done]. intros H. apply Hn. by apply elem_of_list_further.
      * exists r'. split; [done|]. split; [|done]. intros H. apply Hn'. by apply elem_of_list_further.
Qed.
Lemma live_indices_live row : live row (live_indices row).
Proof.
  induction row as [|a row (r & E & Hn & Hr)]; cbn [live_indices].
  - exists []. split; [done|]. split; [apply not_elem_of_nil|]. by left.
  - unfold NO_INDEX in *. destruct (a =? 65535) eqn:Ea.
    + assert (a = 65535) as -> by lia. exists (65535 :: row). split; [done|]. split; [apply not_elem_of_nil|]. right. eauto.
    + exists r. split; [cbn; by f_equal|]. split; [|done]. rewrite not_elem_of_cons. split; [lia|done].
Qed.

(** The polygon's corners in local units. *)
Definition corners_at (m : pmesh) (l : list Z) (inp : list vec3) : Prop :=
  Forall2 (λ i v, ∃ w, pm_verts m !! Z.to_nat i = Some w ∧ v = scaled (g_cs (pm_geo m)) (g_ch (pm_geo m)) (vx w) (vy w) (vz w)) l inp.

Theorem C59_submeshes :
  ∀ fuel m ch dist err o, pm_verts m ≠ [] → Z.of_nat (length (pm_polys m)) * 255 < 4294967296 →
  (∀ row, row ∈ pm_polys m → ∃ l, live row l ∧ (3 ≤ length l)%nat) →
  detail_new fuel m ch dist err = Done o →
  length (dm_meshes o) = length (pm_polys m) ∧
  tiles 0 ((λ s, (sm_vbase s, sm_vcount s)) <$> dm_meshes o) (Z.of_nat (length (dm_verts o))) ∧
  tiles 0 ((λ s, (sm_tbase s, sm_tcount s)) <$> dm_meshes o) (Z.of_nat (length (dm_tris o))) ∧
  length (dm_flags o) = length (dm_tris o) ∧
  ∀ k row l sm, pm_polys m !! k = Some row → live row l → dm_meshes o !! k = Some sm →
    let ts := segment (dm_tris o) (sm_tbase sm) (sm_tcount sm) in
    sm_vcount sm ≤ 127 ∧ sm_tcount sm ≤ 255 ∧
    Forall (λ t, ∀ c, c ∈ corners t → Z.of_nat c < sm_vcount sm) ts ∧
    ∃ inp (E : list (list vec3)) extra, corners_at m l inp ∧ length E = length inp ∧
      segment (dm_verts o) (sm_vbase sm) (sm_vcount sm) = shifted (g_min (pm_geo m)) (g_ch (ch_geo ch)) <$> inp ++ concat E ++ extra ∧
      Forall2 (flags_exact (outline E)) ts (segment (dm_flags o) (sm_tbase sm) (sm_tcount sm)) ∧
      ((extra = [] ∧ covers (outline E) ts ∧ length ts = (length (outline E) - 2)%nat) ∨
       Forall (oriented (inp ++ concat E ++ extra) (length (inp ++ concat E ++ extra))) ts).
Proof.
  intros fuel m ch dist err o Hv Hbig H3 Hd.
  destruct (detail_new_table fuel m ch dist err o) as [(T1 & T2 & T3 & T4) Hsub]; [done| |done|done|].
  { intros k row Hk. apply elem_of_list_lookup_2 in Hk. destruct (H3 _ Hk) as (l & Hl & Hn). by rewrite (live_fun _ _ _ (live_indices_live row) Hl). }
  split; [done|]. split; [done|]. split; [done|]. split; [done|].
  intros k row l sm Hrow Hl Hsm. cbv zeta.
  destruct (Hsub k) as (row' & reg & inp & b & verts & data & hp & vs & ts & fs & E & extra & sm' & S1 & _ & S3 & _ & _ & _ & S7 & _ & _ & S10 & S11 & S12 & S13); [by apply lookup_lt_Some in Hrow|].
  rewrite Hrow in S1. injection S1 as <-. rewrite Hsm in S10. injection S10 as <-.
  rewrite S11, S12, S13. destruct S7.
  assert (((λ sm, (sm_vbase sm, sm_vcount sm)) <$> dm_meshes o) !! k = Some (sm_vbase sm, sm_vcount sm)) as Hvr by (by rewrite list_lookup_fmap, Hsm).
  assert (((λ sm, (sm_tbase sm, sm_tcount sm)) <$> dm_meshes o) !! k = Some (sm_tbase sm, sm_tcount sm)) as Htr by (by rewrite list_lookup_fmap, Hsm).
  apply (tiles_range _ _ _ k) with (1 := T2) in Hvr. apply (tiles_range _ _ _ k) with (1 := T3) in Htr.
  assert (sm_vcount sm = Z.of_nat (length vs)) as Ev.
  { apply (f_equal length) in S11. unfold segment in S11. rewrite take_length, drop_length, fmap_length in S11. lia. }
  assert (sm_tcount sm = Z.of_nat (length ts)) as Et.
  { apply (f_equal length) in S12. unfold segment in S12. rewrite take_length, drop_length in S12. lia. }
  split; [lia|]. split; [lia|]. split.
  { eapply Forall_impl; [exact so_tris|]. intros [[a b'] c] (Ha & Hb & Hc) x Hx. cbn in Hx. rewrite !elem_of_cons, elem_of_nil in Hx.
    destruct Hx as [-> | [-> | [-> | []]]]; lia. }
  exists inp, E, extra. split; [by rewrite (live_fun _ _ _ Hl (live_indices_live row))|]. split; [done|]. rewrite <-so_verts. done.
Qed.
Print Assumptions C59_submeshes.

(** ** C60: how closely the detail follows the height data *)

(** The parameters of the search, and the heights of the polygon's patch. *)
Definition query (m : pmesh) (ch : chf) (dist err : f32) : dparams :=
  DP dist err (Z.max 1 (f_cast f_ceil_Z 0 U32_MAX (pm_maxerr m))) (g_cs (ch_geo ch)) (g_ch (ch_geo ch)).

Theorem C60_detail_error :
  ∀ fuel m ch dist err o, pm_verts m ≠ [] → Z.of_nat (length (pm_polys m)) * 255 < 4294967296 →
  (∀ row, row ∈ pm_polys m → ∃ l, live row l ∧ (3 ≤ length l)%nat) →
  detail_new fuel m ch dist err = Done o →
  ∀ k row l sm, pm_polys m !! k = Some row → live row l → dm_meshes o !! k = Some sm →
    let p := query m ch dist err in
    let ts := segment (dm_tris o) (sm_tbase sm) (sm_tcount sm) in
    ∃ reg b verts data hp inp (E : list (list vec3)) extra,
      pm_regs m !! k = Some reg ∧ poly_bounds (Z.of_nat (ch_w ch)) (Z.of_nat (ch_h ch)) (pm_verts m) row = Done b ∧
      get_height_data fuel ch l verts (pm_border m) reg
        (HP data (b_xmin b) (b_zmin b) (b_xmax b - b_xmin b) (b_zmax b - b_zmin b)) = Done hp ∧
      corners_at m l inp ∧ length E = length inp ∧
      segment (dm_verts o) (sm_vbase sm) (sm_vcount sm) = shifted (g_min (pm_geo m)) (g_ch (ch_geo ch)) <$> inp ++ concat E ++ extra ∧
      (** along every edge no sample is farther than the error from the detail *)
      (∀ i e v w, E !! i = Some e → inp !! before (length inp) i = Some v → inp !! i = Some w → edge_out p hp (length inp + length (concat (take i E))) v w e) ∧
      (** in the interior every sample is a vertex, or near a triangle, or the mesh is full *)
      (extra = [] ∨ interior p hp inp (inp ++ concat E ++ extra) ts extra) ∧
      (∀ mext, poly_min_extent_sq inp (length inp) = Done mext →
        f_lt mext (f_mul (f_mul dist f_two) (f_mul dist f_two)) = false → interior p hp inp (inp ++ concat E ++ extra) ts extra).
Proof.
  intros fuel m ch dist err o Hv Hbig H3 Hd k row l sm Hrow Hl Hsm. cbv zeta.
  destruct (detail_new_table fuel m ch dist err o) as [_ Hsub]; [done| |done|done|].
  { intros k' row' Hk. apply elem_of_list_lookup_2 in Hk. destruct (H3 _ Hk) as (l' & Hl' & Hn). by rewrite (live_fun _ _ _ (live_indices_live row') Hl'). }
  destruct (Hsub k) as (row' & reg & inp & b & verts & data & hp & vs & ts & fs & E & extra & sm' & S1 & S2 & S3 & S4 & S5 & S6 & S7 & S8 & S9 & S10 & S11 & S12 & S13); [by apply lookup_lt_Some in Hrow|].
  rewrite Hrow in S1. injection S1 as <-. rewrite Hsm in S10. injection S10 as <-. rewrite S11, S12. destruct S7.
  rewrite (live_fun _ _ _ Hl (live_indices_live row)). exists reg, b, verts, data, hp, inp, E, extra. rewrite <-so_verts.
  split; [done|]. split; [done|]. split; [done|]. split; [done|]. split; [done|]. split; [done|]. split; [done|]. split; [done|]. done.
Qed.
Print Assumptions C60_detail_error.

(** The two polygons at an edge sample it at the same places: the end points are
    put in the same order whichever way the edge is walked. *)
Lemma abs_round s s' m e : SFabs (binary_round 24 128 s m e) = SFabs (binary_round 24 128 s' m e).
Proof.
  unfold binary_round. destruct (shl_align _ _ _) as [mz ez]. unfold binary_round_aux.
  destruct (shr_fexp 24 128 (Z.pos mz) ez loc_Exact) as [mrs' e'].
  destruct (shr_fexp 24 128 _ e' loc_Exact) as [mrs'' e'']. destruct (shr_m mrs''); [done| |done]. by destruct (_ <=? _).
Qed.
Lemma abs_norm m e s s' : SFabs (binary_normalize 24 128 m e s) = SFabs (binary_normalize 24 128 (- m) e s').
Proof. destruct m; cbn [binary_normalize Z.opp]; [done|apply abs_round|apply abs_round]. Qed.
Lemma abs_sub (x y : f32) : f_abs (f_sub x y) = f_abs (f_sub y x).
Proof.
  unfold f_abs, f_sub. destruct x as [sx|sx| |sx mx ex], y as [sy|sy| |sy my ey]; cbn [SFsub SFabs]; try done.
  - by destruct sx, sy.
  - by destruct sx, sy.
  - rewrite (Z.min_comm ey ex). rewrite (abs_norm _ _ false false). do 2 f_equal. lia.
Qed.
Theorem C60_shared_edge :
  ∀ a b p q s, edge_order a b = (p, q, s) →
  (* not the same corner twice, and no NaN *)
  (f_lt (f_abs (f_sub (v_x a) (v_x b))) c_1em6 = false → f_lt (v_x a) (v_x b) = true ∨ f_lt (v_x b) (v_x a) = true) →
  (f_lt (f_abs (f_sub (v_x a) (v_x b))) c_1em6 = true → f_lt (v_z a) (v_z b) = true ∨ f_lt (v_z b) (v_z a) = true) →
  edge_order b a = (p, q, negb s).
Proof.
  intros a b p q s E Hx Hz. unfold edge_order in *. rewrite (abs_sub (v_x b) (v_x a)).
  assert (∀ x y, f_lt x y = true → f_lt y x = false) as Has.
  { intros x y H. destruct (f_lt y x) eqn:E'; [|done]. pose proof (f_lt_trans _ _ _ H E') as F. by rewrite f_lt_irrefl in F. }
  destruct (f_lt (f_abs _) _).
  - destruct Hz as [H|H]; [done| |]; rewrite (Has _ _ H) in *; rewrite H in *; injection E as <- <- <-; done.
  - destruct Hx as [H|H]; [done| |]; rewrite (Has _ _ H) in *; rewrite H in *; injection E as <- <- <-; done.
Qed.
Print Assumptions C60_shared_edge.
Example C60_shared_ex :
  let a := scaled f_one f_one 8 0 8 in let b := scaled f_one f_one 0 0 0 in let c := scaled f_one f_one 8 0 0 in
  edge_order a b = (b, a, true) ∧ edge_order b a = (b, a, false) ∧ edge_order a c = (c, a, true) ∧ edge_order c a = (c, a, false) ∧
  f_lt (v_x b) (v_x a) = true ∧ f_lt (f_abs (f_sub (v_x a) (v_x c))) c_1em6 = true ∧ f_lt (v_z c) (v_z a) = true.
Proof. cbv zeta. split_and!; by vm_compute. Qed.

(** ** C61: polygons of several regions *)

(** Such polygons have region 0; the search then starts from stale vertices. The
    first polygon of a mesh fails wherever it is, unless it is at the left side. *)
Theorem C61_several_regions_refuted :
  (∀ fuel m ch dist err o row b, pm_verts m ≠ [] → pm_polys m !! 0%nat = Some row → pm_regs m !! 0%nat = Some 0 →
     poly_bounds (Z.of_nat (ch_w ch)) (Z.of_nat (ch_h ch)) (pm_verts m) row = Done b → 2 ≤ b_xmin b →
     detail_new fuel m ch dist err ≠ Done o) ∧
  let quad reg := PMesh [V 4 0 4; V 4 0 8; V 8 0 8; V 8 0 4] [[0; 1; 2; 3]] [] [1] [reg] [63] 4 geo0 0 f_one in
  poly_bounds 9 9 (pm_verts (quad 0)) [0; 1; 2; 3] = Done (Bnds 3 9 3 9) ∧
  detail_new 100 (quad 0) hill f_two f_one = Panicked ∧
  ∃ o, detail_new 100 (quad 1) hill f_two f_one = Done o.
Proof.
  split; [apply detail_new_first_none|]. split; [by vm_compute|]. split; [by vm_compute|]. eexists. vm_compute. reflexivity.
Qed.
Print Assumptions C61_several_regions_refuted.

(** ** C62: room for the result *)

(** Storing a polygon's detail never fails while the totals stay within 256 of
    the first allocation (1.5 times the vertices of the polygons). *)
Theorem C62_storing_fits :
  ∀ c len n r, grown_once c r → (len ≤ c)%nat ∨ rm_track r = (c + 256)%nat → (len + n ≤ c + 256)%nat →
  ∃ r', make_room len n r = Done r' ∧ grown_once c r' ∧ ((len + n ≤ c)%nat ∨ rm_track r' = (c + 256)%nat).
Proof. apply make_room_fits. Qed.
Print Assumptions C62_storing_fits.
(** The vectors themselves are grown as the standard library documents it: [reserve]
    makes room for what is asked, does nothing if there is room, and otherwise at least
    doubles the capacity; pushing leaves room for what was pushed. *)
Theorem C62_vectors_grow :
  (∀ cap len add, (len ≤ cap)%nat →
    (len + add ≤ vec_reserve cap len add)%nat ∧
    ((len + add ≤ cap)%nat → vec_reserve cap len add = cap) ∧
    ((cap < len + add)%nat → 2 * cap ≤ vec_reserve cap len add)%nat) ∧
  (∀ n cap len, (len ≤ cap)%nat → (len + n ≤ vec_push_n n cap len)%nat ∧ ((len + n ≤ cap)%nat → vec_push_n n cap len = cap)).
Proof.
  assert (∀ cap len add, (len ≤ cap)%nat →
    (len + add ≤ vec_reserve cap len add)%nat ∧
    ((len + add ≤ cap)%nat → vec_reserve cap len add = cap) ∧
    ((cap < len + add)%nat → 2 * cap ≤ vec_reserve cap len add)%nat) as H.
  { intros cap len add Hl. unfold vec_reserve. destruct (Nat.ltb_spec (cap - len) add); split_and!; intros; lia. }
  split; [exact H|]. induction n as [|n IH]; intros cap len Hl; cbn; [split; [lia|done]|].
  destruct (H cap len 1%nat Hl) as (H1 & H2 & _). destruct (IH (vec_reserve cap len 1) (Datatypes.S len)) as [H3 H4]; [lia|].
  split; [lia|]. intros Hc. rewrite H2 in * by lia. apply H4. lia.
Qed.
Print Assumptions C62_vectors_grow.
(** Beyond that it can: 140 polygons of three corners and eight detail vertices
    each. The bookkeeping grows in steps of 256, the vector by doubling, and the
    difference of the two becomes negative. *)
Theorem C62_growth_refuted :
  let many n := PMesh [V 0 0 0; V 0 0 8; V 8 0 8] (repeat [0; 1; 2] n) [] (repeat 1 n) (repeat 1 n) (repeat 63 n) 3 geo0 0 f_one in
  (∃ o, detail_new 100 (many 20%nat) hill f_two f_one = Done o ∧ length (dm_verts o) = 160%nat) ∧
  detail_new 100 (many 140%nat) hill f_two f_one = Panicked.
Proof. split; [eexists; split; vm_compute; reflexivity|vm_compute; reflexivity]. Qed.
Print Assumptions C62_growth_refuted.

(** ** C63: height queries *)
Theorem C63_height_query :
  ∀ f ics ch r hp, patch_ok hp → 1 ≤ hp_w hp → 1 ≤ hp_h hp → 0 ≤ r ≤ 32767 →
  let cell c := f_cast f_floor_Z I32_MIN I32_MAX (f_add (f_mul c ics) c_0_01) in
  let col c lo n := Z.max 0 (Z.min (n - 1) (cell c - lo)) in
  let off v := f_abs (f_sub (f_mul (f_of_Z v) ch) (v_y f)) in
  I32_MIN ≤ cell (v_x f) - hp_xmin hp ≤ I32_MAX → I32_MIN ≤ cell (v_z f) - hp_zmin hp ≤ I32_MAX →
  ∃ v, get_height f ics ch r hp = Done v ∧
    nearest_height (hp_data hp) (hp_w hp) (hp_h hp) (col (v_x f) (hp_xmin hp) (hp_w hp)) (col (v_z f) (hp_zmin hp) (hp_h hp)) r
      (λ u, f_lt (off u) F32_MAX = true) (λ u v, f_lt (off u) (off v) = true) v.
Proof. intros f ics ch r hp Hok Hw Hh Hr. cbv zeta. intros Hx Hz. by apply get_height_spec. Qed.
Print Assumptions C63_height_query.
(** Two heights in the second ring of an otherwise empty patch. *)
Definition patch5 : hpatch := HP (<[3%nat := 9]> (<[20%nat := 4]> (repeat 65535 25))) 10 20 5 5.
Example C63_ex : patch_ok patch5 ∧ get_height (V3 (f_of_Z 12) (f_of_Z 5) (f_of_Z 22)) f_one f_one 2 patch5 = Done 4 ∧
  get_height (V3 (f_of_Z 12) (f_of_Z 7) (f_of_Z 22)) f_one f_one 2 patch5 = Done 9 ∧
  get_height (V3 (f_of_Z 12) (f_of_Z 7) (f_of_Z 22)) f_one f_one 1 patch5 = Done 65535.
Proof. split; [by vm_compute|]. split_and!; by vm_compute. Qed.
