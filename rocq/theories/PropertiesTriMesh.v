(** Triangle meshes and direction tables: theorems C42 to C45, C52, C53. *)
From Verif Require Import Base ModelMath ModelHeightfield ModelTriMesh SpecTriMesh FloatOrder TriMeshProofs.
Local Open Scope Z_scope.

(** ** C42 *)

Theorem C42_extend :
  ∀ a b, valid a → valid b → Z.of_nat (length (tm_verts a) + length (tm_verts b)) <= 4294967295 →
  ∃ m, extend a b = Done m ∧ valid m ∧ soup m = soup a ++ soup b.
Proof.
  intros a b Ha Hb Hn. destruct (extend_done a b Ha Hb) as (m & E & V & S & _); [lia..|]. by exists m.
Qed.
(** Gathering any number of meshes keeps all triangles in order. *)
Theorem C42_gather :
  ∀ ms, Forall valid ms → foldr Z.add 0 ((λ m, Z.of_nat (length (tm_verts m))) <$> ms) <= 4294967295 →
  ∃ m, foldM (λ b a, extend a b) ms tm_default = Done m ∧ valid m ∧ soup m = concat (soup <$> ms).
Proof.
  intros ms Hv Hn.
  assert (∀ a, valid a → Z.of_nat (length (tm_verts a)) + foldr Z.add 0 ((λ m, Z.of_nat (length (tm_verts m))) <$> ms) <= 4294967295 →
    ∃ m, foldM (λ b a, extend a b) ms a = Done m ∧ valid m ∧ soup m = soup a ++ concat (soup <$> ms)) as H.
  { clear Hn. induction Hv as [|b ms Hb Hms IH]; intros a Ha Hn.
    - exists a. split; [done|]. split; [done|]. by rewrite app_nil_r.
    - rewrite fmap_cons in Hn. cbn [foldr] in Hn. cbn [foldM].
      assert (∀ l : list trimesh, 0 <= foldr Z.add 0 ((λ m, Z.of_nat (length (tm_verts m))) <$> l)) as Hpos.
      { intros l. induction l as [|x l IHl]; [done|]. rewrite fmap_cons. cbn [foldr]. lia. }
      specialize (Hpos ms).
      destruct (extend_done a b Ha Hb) as (m & -> & V & S & W); [lia..|]. cbn [obind].
      destruct (IH m V) as (m' & -> & V' & S'); [rewrite W, app_length; lia|].
      exists m'. split; [done|]. split; [done|]. rewrite S', S, fmap_cons. cbn [concat]. by rewrite app_assoc. }
  destruct (H tm_default) as (m & E & V & S); [by repeat constructor|cbn; done|]. by exists m.
Qed.
(** An index that does not name a vertex of the first mesh names one of the
    second afterwards. *)
Theorem C42_invalid_index_refuted :
  ∃ a b m, valid b ∧ length (tm_areas a) = length (tm_idx a) ∧ extend a b = Done m ∧ soup m ≠ soup a ++ soup b ∧ valid m.
Proof.
  exists (TM [] [(0, 1, 2)] [0]), (TM [v_zero; v_zero; v_zero] [] []). eexists.
  split; [by repeat constructor|]. split; [done|]. split; [vm_compute; reflexivity|]. split; [done|].
  repeat constructor; cbn; lia.
Qed.

Definition p3 (x y z : Z) : vec3 := V3 (f_of_Z x) (f_of_Z y) (f_of_Z z).
Definition tri_a : trimesh := TM [p3 0 0 0; p3 0 0 1; p3 1 0 0] [(0, 1, 2)] [255].
Definition tri_b : trimesh := TM [p3 0 5 0; p3 1 5 0; p3 0 5 1; p3 1 5 1] [(0, 1, 2); (3, 2, 1)] [0; 7].
Example C42_ex : valid tri_a ∧ valid tri_b ∧ ∃ m, extend tri_a tri_b = Done m ∧ tm_idx m = [(0, 1, 2); (3, 4, 5); (6, 5, 4)].
Proof.
  split; [|split].
  - repeat constructor; cbn; lia.
  - repeat constructor; cbn; lia.
  - eexists. split; [vm_compute; reflexivity|done].
Qed.

(** ** C43 *)

(** What the code does: every part is moved by the placements of the parts that
    follow it, never by its own. *)
Theorem C43_actual_placement :
  ∀ parts, Forall part_valid parts.*2 → foldr Z.add 0 (part_size <$> parts.*2) <= 4294967295 →
  ∃ m, compound_trimesh parts = Done m ∧ valid m ∧ soup m = drifted parts.
Proof.
  intros parts Hp Hn. destruct (compound_from parts tm_default) as (m & E & V & S); [by repeat constructor|done|done|].
  exists m. split; [done|]. split; [done|]. rewrite S.
  assert (∀ l, foldl (λ (ts : list placed_tri) (q : iso * option (list vec3 * list (Z * Z * Z))),
    match q.2 with None => ts | Some _ => move (act q.1) <$> ts end) [] l = []) as H by (intros l; induction l as [|[? [?|]] l IHl]; done).
  change (soup tm_default) with (@nil placed_tri). by rewrite H.
Qed.
(** Hence a compound of one shape ignores where the shape is. *)
Theorem C43_single_part :
  ∀ i s, part_valid s → part_size s <= 4294967295 →
  ∃ m, compound_trimesh [(i, s)] = Done m ∧ soup m = part_soup s.
Proof.
  intros i s Hs Hn. destruct (C43_actual_placement [(i, s)]) as (m & E & _ & S).
  - by repeat constructor.
  - cbn. destruct s as [[? ?]|]; cbn in *; lia.
  - exists m. split; [done|]. rewrite S. cbn [drifted foldl snd]. apply app_nil_r.
Qed.
Definition shift_up : iso := Iso (Qt v_zero f_one) (p3 0 10 0).
Theorem C43_own_placement_refuted :
  ∃ parts m, Forall part_valid parts.*2 ∧ compound_trimesh parts = Done m ∧ soup m ≠ assembled parts.
Proof.
  exists [(shift_up, Some ([p3 0 0 0; p3 0 0 1; p3 1 0 0], [(0, 1, 2)]))]. eexists.
  split; [repeat constructor; cbn; lia|]. split; [vm_compute; reflexivity|]. by vm_compute.
Qed.
(** It is right when no placement moves any corner. *)
Theorem C43_unmoved_parts :
  ∀ parts, Forall part_valid parts.*2 → foldr Z.add 0 (part_size <$> parts.*2) <= 4294967295 →
  (∀ p q v, p ∈ parts → q ∈ parts → (∃ vs idx, q.2 = Some (vs, idx) ∧ v ∈ vs) → act p.1 v = v) →
  ∃ m, compound_trimesh parts = Done m ∧ soup m = assembled parts.
Proof.
  intros parts Hp Hn Hid. destruct (C43_actual_placement parts Hp Hn) as (m & E & _ & S). exists m. split; [done|]. rewrite S.
  clear -Hid.
  assert (∀ p q, p ∈ parts → q ∈ parts → move (act p.1) <$> part_soup q.2 = part_soup q.2) as Hmv.
  { intros p q Hp Hq. destruct q as [j [[vs idx]|]]; [|done]. cbn [part_soup snd]. rewrite <- list_fmap_compose.
    apply list_fmap_ext. intros k t _. unfold compose, move. cbn [fst snd].
    assert (∀ i, act p.1 <$> corner_at vs i = corner_at vs i) as Hc.
    { intros i. unfold corner_at. destruct (_ <? _); [done|]. destruct (vs !! Z.to_nat i) as [v|] eqn:Hv; [|done]. cbn. f_equal.
      apply (Hid p (j, Some (vs, idx)) v Hp Hq). exists vs, idx. split; [done|]. by eapply elem_of_list_lookup_2. }
    by rewrite !Hc. }
  clear Hid.
  assert (∀ l, (∀ q, q ∈ l → q ∈ parts) → drifted l = assembled l) as H; [|by apply H].
  intros l. induction l as [|q l IH]; intros Hl; [done|]. unfold assembled. rewrite fmap_cons. cbn [concat drifted]. f_equal.
  - rewrite (Hmv q q) by (apply Hl; left).
    assert (∀ r, r ∈ l → r ∈ parts) as Hl' by (intros r Hr; apply Hl; by right).
    assert (q ∈ parts) as Hq by (apply Hl; left). clear Hl IH. induction l as [|[j [p|]] l IH]; [done|..]; cbn [foldl snd fst].
    + assert (move (act j) <$> part_soup q.2 = part_soup q.2) as -> by (apply (Hmv (j, Some p) q); [apply Hl'; left|done]). apply IH. intros r Hr. apply Hl'. by right.
    + apply IH. intros r Hr. apply Hl'. by right.
  - apply IH. intros r Hr. apply Hl. by right.
Qed.
Definition no_move : iso := Iso (Qt v_zero f_one) v_zero.
Example C43_ex : ∃ m, compound_trimesh [(no_move, Some ([p3 0 0 0; p3 0 0 1; p3 1 0 0], [(0, 1, 2)])); (no_move, None);
    (no_move, Some ([p3 4 0 0; p3 4 0 1; p3 5 0 0], [(0, 1, 2)]))] = Done m ∧ length (soup m) = 2%nat.
Proof. eexists. split; [vm_compute; reflexivity|done]. Qed.
Example C43_ex_hyp : act no_move (p3 4 0 1) = p3 4 0 1.
Proof. by vm_compute. Qed.

(** ** C44 *)

(** The y of the unit normal of a triangle, as computed. *)
Definition steepness (vs : list vec3) (t : Z * Z * Z) : option f32 :=
  a ← corner_at vs t.1.1; b ← corner_at vs t.1.2; c ← corner_at vs t.2;
  Some (v_y (v_normalize_or_zero (v_cross (v_sub b a) (v_sub c a)))).

Lemma steepness_done vs t : in_range (length vs) t → ∃ n, tri_normal vs t = Done n ∧ steepness vs t = Some (v_y n).
Proof.
  intros (H1 & H2 & H3). unfold tri_normal, steepness, vert, corner_at.
  destruct (lookup_lt_is_Some_2 vs (Z.to_nat t.1.1)) as [a Ha]; [lia|].
  destruct (lookup_lt_is_Some_2 vs (Z.to_nat t.1.2)) as [b Hb]; [lia|].
  destruct (lookup_lt_is_Some_2 vs (Z.to_nat t.2)) as [c Hc]; [lia|].
  rewrite (get_some _ _ _ Ha). cbn [obind]. rewrite (get_some _ _ _ Hb). cbn [obind]. rewrite (get_some _ _ _ Hc). cbn [obind].
  eexists. split; [done|]. destruct (t.1.1 <? 0) eqn:E1; [lia|]. destruct (t.1.2 <? 0) eqn:E2; [lia|]. destruct (t.2 <? 0) eqn:E3; [lia|].
  by rewrite Ha, Hb, Hc.
Qed.

(** Exactly the triangles whose normal is steep enough become walkable; all else
    stays. *)
Theorem C44_marks_exactly :
  ∀ m thr, valid m → ∃ m', mark_walkable m thr = Done m' ∧ tm_verts m' = tm_verts m ∧ tm_idx m' = tm_idx m ∧
    length (tm_areas m') = length (tm_areas m) ∧
    ∀ k t y a, tm_idx m !! k = Some t → steepness (tm_verts m) t = Some y → tm_areas m !! k = Some a →
      tm_areas m' !! k = Some (if f_lt thr y then 255 else a).
Proof.
  intros m thr [Hv Hl]. unfold mark_walkable. set (vs := tm_verts m) in *.
  assert (∀ l pre areas, Forall (in_range (length vs)) l → length areas = (pre + length l)%nat →
    ∃ areas', foldM (λ '(i, t) areas, let! n := tri_normal vs t in if f_lt thr (v_y n) then put areas i DEFAULT_WALKABLE else Done areas)
      (imap (λ i t, ((pre + i)%nat, t)) l) areas = Done areas' ∧ length areas' = length areas ∧
    (∀ k, (k < pre)%nat → areas' !! k = areas !! k) ∧
    ∀ k t y a, l !! k = Some t → steepness vs t = Some y → areas !! (pre + k)%nat = Some a → areas' !! (pre + k)%nat = Some (if f_lt thr y then 255 else a)) as H.
  { intros l. induction l as [|t l IH]; intros pre areas Hr Hla.
    - exists areas. split; [done|]. split; [done|]. split; [done|]. intros k t y a Hk. done.
    - apply Forall_cons in Hr as [Ht Hr]. cbn [imap foldM]. rewrite Nat.add_0_r.
      destruct (steepness_done vs t Ht) as (n & -> & Hst). cbn [obind]. cbn [length] in Hla.
      set (areas1 := if f_lt thr (v_y n) then <[pre := 255]> areas else areas).
      assert ((if f_lt thr (v_y n) then put areas pre DEFAULT_WALKABLE else Done areas) = Done areas1) as ->.
      { unfold areas1. destruct (f_lt thr (v_y n)); [|done]. rewrite put_lt; [done|lia]. }
      cbn [obind]. assert (length areas1 = length areas) as Hl1 by (unfold areas1; destruct (f_lt _ _); [apply insert_length|done]).
      destruct (IH (S pre) areas1 Hr) as (areas' & E & Hla' & Hlow & Hk); [lia|].
      exists areas'. split.
      { rewrite <- E. f_equal. apply imap_ext. intros i x _. cbn. f_equal. lia. }
      split; [lia|]. split.
      + intros k Hk'. rewrite Hlow by lia. unfold areas1. destruct (f_lt _ _); [|done]. apply list_lookup_insert_ne. lia.
      + intros k t0 y a Hkt Hy Ha. destruct k as [|k].
        * injection Hkt as <-. rewrite Hst in Hy. injection Hy as <-. rewrite Nat.add_0_r in *. rewrite Hlow by lia. unfold areas1.
          destruct (f_lt thr (v_y n)); [|done]. apply list_lookup_insert. lia.
        * replace (pre + S k)%nat with (S pre + k)%nat in * by lia. apply (Hk k t0 y a); [done|done|].
          unfold areas1. destruct (f_lt _ _); [|done]. rewrite list_lookup_insert_ne by lia. done. }
  destruct (H (tm_idx m) 0%nat (tm_areas m) Hv) as (areas' & E & Hla & _ & Hk); [lia|].
  change (imap (λ i t, ((0 + i)%nat, t)) (tm_idx m)) with (imap (λ i t, (i, t)) (tm_idx m)) in E. rewrite E. cbn [obind].
  eexists. split; [done|]. done.
Qed.

(** With a threshold of at most a right angle, at most one side of a triangle is
    walkable, whatever the rounding, and triangles without a normal are not. *)
Theorem C44_one_side :
  ∀ vs a b c thr y y', f_lt thr f_zero = false →
  steepness vs (a, b, c) = Some y → steepness vs (a, c, b) = Some y' → f_lt thr y = true → f_lt thr y' = false.
Proof.
  intros vs a b c thr y y' Ht Hy Hy' Hlt. unfold steepness in *. cbn [fst snd] in *.
  destruct (corner_at vs a) as [pa|]; [|done]. destruct (corner_at vs b) as [pb|]; [|done]. destruct (corner_at vs c) as [pc|]; [|done].
  cbn in Hy, Hy'. injection Hy as <-. injection Hy' as <-.
  apply (pos_trans thr) in Hlt; [|done]. apply normalize_pos in Hlt.
  destruct (f_lt thr (v_y (v_normalize_or_zero (v_cross (v_sub pc pa) (v_sub pb pa))))) eqn:E; [|done]. exfalso.
  apply (pos_trans thr) in E; [|done]. apply normalize_pos in E. by apply (facing_flip pa pb pc).
Qed.
(** A walkable triangle winds counter-clockwise seen from above, as computed. *)
Theorem C44_faces_up :
  ∀ vs a b c thr y pa pb pc, f_lt thr f_zero = false → steepness vs (a, b, c) = Some y → f_lt thr y = true →
  corner_at vs a = Some pa → corner_at vs b = Some pb → corner_at vs c = Some pc →
  f_lt f_zero (f_sub (f_mul (f_sub (v_z pb) (v_z pa)) (f_sub (v_x pc) (v_x pa))) (f_mul (f_sub (v_x pb) (v_x pa)) (f_sub (v_z pc) (v_z pa)))) = true.
Proof.
  intros vs a b c thr y pa pb pc Ht Hy Hlt Ha Hb Hc. unfold steepness in Hy. cbn [fst snd] in Hy. rewrite Ha, Hb, Hc in Hy. cbn in Hy.
  injection Hy as <-. apply (pos_trans thr) in Hlt; [|done]. by apply normalize_pos in Hlt.
Qed.
Definition slopes : trimesh := TM [p3 0 0 0; p3 0 0 1; p3 1 0 0; p3 0 9 1] [(0, 1, 2); (0, 2, 1); (0, 3, 2); (0, 0, 0)] [0; 0; 5; 7].
Example C44_ex : valid slopes ∧ ∃ m, mark_walkable slopes (f_of_me 1 (-1)) = Done m ∧ tm_areas m = [255; 0; 5; 7].
Proof. split; [repeat constructor; cbn; lia|]. eexists. split; [vm_compute; reflexivity|done]. Qed.

(** ** C45 *)

Theorem C45_table_inverse : ∀ d, (d < 4)%nat → dir_offset (dir_offset_x d) (dir_offset_z d) = Done (Z.of_nat d).
Proof. intros d Hd. do 4 (destruct d as [|d]; [done|]). lia. Qed.
Theorem C45_opposite : ∀ d, dir_offset_x (d + 2) = - dir_offset_x d ∧ dir_offset_z (d + 2) = - dir_offset_z d.
Proof.
  intros d. unfold dir_offset_x, dir_offset_z. rewrite Nat.add_mod by lia.
  assert (d mod 4 < 4)%nat as H by (apply Nat.mod_upper_bound; lia). destruct (d mod 4)%nat as [|[|[|[|n]]]]; done || lia.
Qed.
Theorem C45_unit_steps : ∀ d, Z.abs (dir_offset_x d) + Z.abs (dir_offset_z d) = 1 ∧
  ∀ e, dir_offset_x d = dir_offset_x e → dir_offset_z d = dir_offset_z e → (d mod 4 = e mod 4)%nat.
Proof.
  intros d. unfold dir_offset_x, dir_offset_z.
  assert (d mod 4 < 4)%nat as H by (apply Nat.mod_upper_bound; lia). split.
  - by destruct (d mod 4)%nat as [|[|[|[|n]]]].
  - intros e. assert (e mod 4 < 4)%nat as H' by (apply Nat.mod_upper_bound; lia).
    destruct (d mod 4)%nat as [|[|[|[|n]]]], (e mod 4)%nat as [|[|[|[|k]]]]; done || lia.
Qed.
Theorem C45_next_prev :
  ∀ n i, (i < n)%nat → ∃ a b, next_idx i n = Done a ∧ prev_idx i n = Done b ∧ (a < n)%nat ∧ (b < n)%nat ∧
    prev_idx a n = Done i ∧ next_idx b n = Done i.
Proof.
  intros n i Hi. unfold next_idx, prev_idx. destruct n as [|n']; [lia|]. set (n := S n') in *.
  exists ((i + 1) mod n)%nat, ((i + n - 1) mod n)%nat. split; [done|]. split; [done|].
  split; [apply Nat.mod_upper_bound; lia|]. split; [apply Nat.mod_upper_bound; lia|]. split; f_equal.
  - destruct (decide (i + 1 = n)%nat) as [E|E].
    + rewrite E, Nat.mod_same by lia. rewrite Nat.mod_small; lia.
    + rewrite (Nat.mod_small (i + 1)) by lia. replace (i + 1 + n - 1)%nat with (i + 1 * n)%nat by lia. rewrite Nat.mod_add by lia. apply Nat.mod_small. lia.
  - destruct (decide (i = 0)%nat) as [->|E].
    + rewrite (Nat.mod_small (0 + n - 1)) by lia. replace (0 + n - 1 + 1)%nat with n by lia. apply Nat.mod_same. lia.
    + replace (i + n - 1)%nat with (i - 1 + 1 * n)%nat by lia. rewrite Nat.mod_add by lia. rewrite (Nat.mod_small (i - 1)) by lia.
      rewrite Nat.mod_small; lia.
Qed.
Theorem C45_empty_ring_panics : ∀ i, next_idx i 0 = Panicked ∧ prev_idx i 0 = Panicked.
Proof. done. Qed.
(** Offsets that are not steps are not rejected. *)
Theorem C45_diagonal_refuted : ∃ ox oz d, Z.abs ox = 1 ∧ Z.abs oz = 1 ∧ dir_offset ox oz = Done d ∧ 0 <= d.
Proof. exists (-1), 1, 2. done. Qed.
Example C45_ex : next_idx 6 7 = Done 0%nat ∧ prev_idx 0 7 = Done 6%nat ∧ dir_offset 1 0 = Done 2.
Proof. done. Qed.

(** ** C52 *)

(** A bevy mesh is accepted exactly if it is an indexed triangle list with
    [Float32x3] positions and whole triangles; then its triangles are the
    consecutive triples of indices, all not walkable. *)
Theorem C52_from_mesh :
  ∀ tl vs is m, from_mesh tl vs is = Some m →
  tl = true ∧ vs = Some (tm_verts m) ∧ ∃ l, is = Some l ∧ (3 * length (tm_idx m) = length l)%nat ∧
    (∀ k t, tm_idx m !! k = Some t → l !! (3 * k)%nat = Some t.1.1 ∧ l !! (3 * k + 1)%nat = Some t.1.2 ∧ l !! (3 * k + 2)%nat = Some t.2) ∧
    tm_areas m = repeat 0 (length (tm_idx m)) ∧
    (Forall (λ i, 0 <= i < Z.of_nat (length (tm_verts m))) l → valid m).
Proof.
  intros tl vs is m. unfold from_mesh. destruct tl; [|done]. cbn [negb]. destruct vs as [vs|]; [|done]. destruct is as [l|]; [|done]. cbn [mbind option_bind].
  destruct (length l mod 3 =? 0)%nat eqn:E; [|done]. apply Nat.eqb_eq in E. intros H. injection H as <-. cbn [tm_verts tm_idx tm_areas]. split; [done|]. split; [done|].
  exists l. split; [done|]. split; [by apply chunks3_length|]. split; [intros k t; apply chunks3_lookup|]. split; [done|].
  intros Hl. split; [|cbn; by rewrite repeat_length]. apply Forall_forall. intros t Ht. apply elem_of_list_lookup in Ht as [k Hk].
  destruct (chunks3_lookup _ _ _ Hk) as (H1 & H2 & H3). rewrite Forall_lookup in Hl.
  split; [|split]; by eapply Hl.
Qed.
Theorem C52_accepts : ∀ vs l, (length l mod 3 = 0)%nat → ∃ m, from_mesh true (Some vs) (Some l) = Some m.
Proof. intros vs l H. unfold from_mesh. cbn [negb mbind option_bind]. rewrite H. eexists. reflexivity. Qed.
Example C52_ex : from_mesh true (Some [v_zero; v_zero; v_zero; v_zero]) (Some [0; 1; 2; 2; 1; 3]) =
  Some (TM [v_zero; v_zero; v_zero; v_zero] [(0, 1, 2); (2, 1, 3)] [0; 0]).
Proof. done. Qed.

(** ** C53 *)

(** The bounding box of a mesh without NaN contains every vertex. *)
Theorem C53_contains :
  ∀ vs lo hi, aabb_of vs = Some (lo, hi) → Forall numbers vs →
  Forall (λ v, between_f (v_x lo) (v_x hi) (v_x v) ∧ between_f (v_y lo) (v_y hi) (v_y v) ∧ between_f (v_z lo) (v_z hi) (v_z v)) vs.
Proof.
  intros vs lo hi H Hn. unfold aabb_of in H. destruct vs as [|v0 vs0] eqn:E; [done|]. rewrite <- E in *. clear E.
  injection H as <- <-. rewrite fold_v_min, fold_v_max. cbn [v_x v_y v_z v_splat].
  assert (∀ g : vec3 → f32, Forall (λ v, number (g v)) vs →
    Forall (λ v, between_f (foldl f_min F32_MAX (g <$> vs)) (foldl f_max F32_MIN (g <$> vs)) (g v)) vs) as H.
  { intros g Hg. destruct (fold_min (g <$> vs) F32_MAX) as (_ & _ & _ & H1); [done|by apply Forall_fmap|].
    destruct (fold_max (g <$> vs) F32_MIN) as (_ & _ & _ & H2); [done|by apply Forall_fmap|].
    apply Forall_fmap in H1, H2. rewrite Forall_forall in H1, H2 |- *. intros v Hv. split; [by apply H1|by apply H2]. }
  assert (Forall (λ v, number (v_x v)) vs ∧ Forall (λ v, number (v_y v)) vs ∧ Forall (λ v, number (v_z v)) vs) as (Hx & Hy & Hz).
  { split; [|split]; (eapply Forall_impl; [exact Hn|]; intros v Hv; apply Hv). }
  apply H in Hx, Hy, Hz. rewrite Forall_forall in Hx, Hy, Hz |- *. intros v Hv. split; [by apply Hx|]. split; [by apply Hy|by apply Hz].
Qed.
(** Every face of it touches a vertex, if all coordinates are finite. *)
Theorem C53_tight :
  ∀ vs lo hi, aabb_of vs = Some (lo, hi) → Forall (λ v, f_finite (v_x v) ∧ f_finite (v_y v) ∧ f_finite (v_z v)) vs →
  ∀ g, g = v_x ∨ g = v_y ∨ g = v_z →
  Forall (λ v, f_lt F32_MAX (g v) = false ∧ f_lt (g v) F32_MIN = false) vs →
  (∃ v, v ∈ vs ∧ f_lt (g v) (g lo) = false ∧ f_lt (g lo) (g v) = false) ∧
  (∃ v, v ∈ vs ∧ f_lt (g v) (g hi) = false ∧ f_lt (g hi) (g v) = false).
Proof.
  intros vs lo hi H Hf g Hg Hm. unfold aabb_of in H. destruct vs as [|v0 vs0] eqn:E; [done|]. rewrite <- E in *.
  injection H as <- <-.
  assert (g (foldl v_min (v_splat F32_MAX) vs) = foldl f_min F32_MAX (g <$> vs) ∧
          g (foldl v_max (v_splat F32_MIN) vs) = foldl f_max F32_MIN (g <$> vs)) as [-> ->].
  { rewrite fold_v_min, fold_v_max. by destruct Hg as [->|[->| ->]]. }
  assert (Forall number (g <$> vs)) as Hn.
  { apply Forall_fmap. eapply Forall_impl; [exact Hf|]. intros v (Hx & Hy & Hz). unfold compose, number.
    destruct Hg as [->|[->| ->]]; intros Hnan; [rewrite Hnan in Hx|rewrite Hnan in Hy|rewrite Hnan in Hz]; done. }
  assert (v0 ∈ vs) as Hv0 by (rewrite E; left). clear E Hf.
  destruct (fold_min (g <$> vs) F32_MAX) as (_ & H1 & _ & H2); [done|done|].
  destruct (fold_max (g <$> vs) F32_MIN) as (_ & H3 & _ & H4); [done|done|].
  apply Forall_fmap in H2, H4. rewrite Forall_forall in H2, H4, Hm. split.
  - destruct H1 as [H1|H1].
    + exists v0. split; [done|]. split; [by apply H2|]. rewrite H1. by apply Hm.
    + apply elem_of_list_fmap in H1 as (v & H1 & Hv). exists v. split; [done|]. split; [by apply H2|]. rewrite H1. apply f_lt_irrefl.
  - destruct H3 as [H3|H3].
    + exists v0. split; [done|]. split; [|by apply H4]. rewrite H3. by apply Hm.
    + apply elem_of_list_fmap in H3 as (v & H3 & Hv). exists v. split; [done|]. split; [|by apply H4]. rewrite H3. apply f_lt_irrefl.
Qed.
Theorem C53_none_iff_empty : ∀ vs, aabb_of vs = None ↔ vs = [].
Proof. intros [|v vs]; split; done. Qed.
(** A NaN coordinate makes the box forget the vertices before it. *)
Theorem C53_nan_refuted :
  ∃ vs lo hi, aabb_of vs = Some (lo, hi) ∧ ∃ v, v ∈ vs ∧ numbers v ∧ f_lt (v_x v) (v_x lo) = true.
Proof.
  exists [p3 0 0 0; V3 S754_nan f_zero f_zero; p3 5 0 0]. eexists _, _. split; [vm_compute; reflexivity|].
  exists (p3 0 0 0). split; [left|]. split; [done|]. by vm_compute.
Qed.
Example C53_ex : aabb_of [p3 1 2 3; p3 (-4) 9 0] = Some (p3 (-4) 2 0, p3 1 9 3).
Proof. by vm_compute. Qed.

Print Assumptions C42_extend.
Print Assumptions C42_gather.
Print Assumptions C42_invalid_index_refuted.
Print Assumptions C43_actual_placement.
Print Assumptions C43_single_part.
Print Assumptions C43_own_placement_refuted.
Print Assumptions C43_unmoved_parts.
Print Assumptions C44_marks_exactly.
Print Assumptions C44_one_side.
Print Assumptions C44_faces_up.
Print Assumptions C45_table_inverse.
Print Assumptions C45_opposite.
Print Assumptions C45_unit_steps.
Print Assumptions C45_next_prev.
Print Assumptions C45_empty_ring_panics.
Print Assumptions C45_diagonal_refuted.
Print Assumptions C52_from_mesh.
Print Assumptions C52_accepts.
Print Assumptions C53_contains.
Print Assumptions C53_tight.
Print Assumptions C53_none_iff_empty.
Print Assumptions C53_nan_refuted.
