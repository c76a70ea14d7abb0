(** The loop that orders the hole of a removed vertex can run for ever. *)
From Verif Require Import Base ModelMath ModelContours ModelPoly.
Local Open Scope Z_scope.

(** An edge that continues neither end of the hole stops the inner loop from
    advancing. *)
Lemma hole_stuck fuel cap edges ne hole i matched d h t : (i < ne)%nat → edges !! i = Some d →
  hole !! 0%nat = Some h → hole !! (length hole - 1)%nat = Some t → h.1.1 ≠ he_2 d → t.1.1 ≠ he_1 d →
  hole_loop fuel cap edges ne hole i matched = OutOfFuel.
Proof.
  intros Hi Hd Hh Ht H1 H2. induction fuel as [|fuel IH]; [done|]. cbn [hole_loop].
  destruct (i <? ne)%nat eqn:E; [|lia]. rewrite (get_some _ _ _ Hd). cbn [obind]. rewrite (get_some _ _ _ Hh). cbn [obind].
  rewrite (get_some _ _ _ Ht). cbn [obind].
  destruct (_ =? he_2 d) eqn:E1; [lia|]. destruct (_ =? he_1 d) eqn:E2; [lia|]. done.
Qed.
Lemma hole_append fuel cap edges ne hole i matched d h t hole' l edges' : (i < ne)%nat → edges !! i = Some d →
  hole !! 0%nat = Some h → hole !! (length hole - 1)%nat = Some t → h.1.1 ≠ he_2 d → t.1.1 = he_1 d →
  push_hole cap false (he_2 d, he_reg d, he_area d) hole = Done hole' → get edges (ne - 1) = Done l → put edges (S i) l = Done edges' →
  (∀ fuel, hole_loop fuel cap edges' (ne - 1) hole' (S i) true = OutOfFuel) →
  hole_loop fuel cap edges ne hole i matched = OutOfFuel.
Proof.
  intros Hi Hd Hh Ht H1 H2 Hp Hl He Hr. destruct fuel as [|fuel]; [done|]. cbn [hole_loop].
  destruct (i <? ne)%nat eqn:E; [|lia]. rewrite (get_some _ _ _ Hd). cbn [obind]. rewrite (get_some _ _ _ Hh). cbn [obind].
  rewrite (get_some _ _ _ Ht). cbn [obind].
  destruct (_ =? he_2 d) eqn:E1; [lia|]. destruct (_ =? he_1 d) eqn:E2; [|lia].
  rewrite Hp. cbn [obind]. rewrite Hl. cbn [obind]. rewrite He. cbn [obind]. apply Hr.
Qed.

Lemma remove_vertex_oof fuel rem mt nvp m cap m1 edges ne m2 edges' e hole :
  let r := Z.of_nat rem in
  (im_np m <= length (im_polys m))%nat →
  cap = (sum_list ((λ row : list Z * list Z, count_rem r nvp (row.1 ++ row.2)) <$> take (im_np m) (im_polys m)) * nvp)%nat →
  drop_polys (2 * im_np m + 1) r nvp 0 m (repeat hedge0 cap, 0%nat) = Done (m1, (edges, ne)) →
  drop_vertex rem m1 = Done m2 →
  edges' = ((λ e, HE (shift r (he_1 e)) (shift r (he_2 e)) (he_reg e) (he_area e)) <$> take ne edges) ++ drop ne edges →
  (0 < ne)%nat → get edges' 0 = Done e → push_hole cap false (he_1 e, he_reg e, he_area e) [] = Done hole →
  hole_loop fuel cap edges' ne hole 0 false = OutOfFuel →
  remove_vertex fuel rem mt nvp m = OutOfFuel.
Proof.
  intros r Hnp -> Hd Hv -> Hne He Hp Hh. unfold remove_vertex. fold r.
  destruct (_ <? _)%nat eqn:E; [rewrite take_length in E; lia|]. rewrite Hd. cbn [obind]. rewrite Hv. cbn [obind].
  destruct (ne =? 0)%nat eqn:E0; [lia|]. rewrite He. cbn [obind]. rewrite Hp. cbn [obind]. by rewrite Hh.
Qed.
Lemma flagged_skip fuel hf mt nvp i flags m : (i < im_nv m)%nat → get flags i = Done false →
  remove_flagged fuel hf mt nvp (S i) flags m = OutOfFuel → remove_flagged (S fuel) hf mt nvp i flags m = OutOfFuel.
Proof. intros Hi Hf H. cbn [remove_flagged]. destruct (_ <? _)%nat eqn:E; [|lia]. rewrite Hf. done. Qed.
Lemma flagged_oof fuel hf mt nvp i flags m : (i < im_nv m)%nat → get flags i = Done true → can_remove (Z.of_nat i) nvp m = Done true →
  remove_vertex hf i mt nvp m = OutOfFuel → remove_flagged (S fuel) hf mt nvp i flags m = OutOfFuel.
Proof.
  intros Hi Hf Hc H. cbn [remove_flagged]. destruct (_ <? _)%nat eqn:E; [|lia]. rewrite Hf. cbn [obind]. rewrite Hc. cbn [obind negb].
  unfold pbind. by rewrite H.
Qed.
Lemma mesh_oof hf nvp ks t flags m : 
  let cs := ks_contours ks in
  let mv := max_vertices cs in
  let mt := max_tris cs in
  Z.of_nat mv <= 65535 →
  all_contours (max_verts_per_cont cs) nvp cs
    (VTab (repeat (V 0 0 0) mv) 0 (repeat None (Z.to_nat BUCKETS)) (repeat (Some 0%nat) mv), repeat false mv,
     IM [] 0 (repeat (repeat NO_INDEX nvp, repeat NO_INDEX nvp) mt) 0 (repeat 0 mt) (repeat 0 mt)) = Done (Ok (t, flags, m)) →
  remove_flagged (2 * vt_n t) hf mt nvp 0 flags
    (IM (vt_verts t) (vt_n t) (take (im_np m) (im_polys m)) (im_np m) (im_regs m) (im_areas m)) = OutOfFuel →
  into_polygon_mesh hf nvp ks = OutOfFuel.
Proof.
  intros cs mv mt Hmv Ha Hr. unfold into_polygon_mesh. fold cs mv mt. destruct (65535 <? _) eqn:E; [lia|].
  rewrite Ha. unfold pbind at 1. cbn [obind]. cbn [im_nv]. rewrite Hr. done.
Qed.
