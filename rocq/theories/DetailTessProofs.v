(** The outline of a polygon with its extra vertices. *)
From Verif Require Import Base FlowProofs ModelMath FloatOrder ModelHeightfield ModelCompact ModelContours ModelPoly ModelTriMesh ModelMarkArea ModelDetail SpecDetail DetailEdgeProofs.
Local Open Scope Z_scope.

Lemma take_insert_snoc {A} (l : list A) n a : (n < length l)%nat → take (S n) (<[n := a]> l) = take n l ++ [a].
Proof.
  intros H. erewrite take_S_r by (by rewrite list_lookup_insert). by rewrite take_insert by lia.
Qed.

(** The length of an edge in samples. *)
Definition edge_len (a b : vec3) : f32 := let d := v_sub b a in f_sqrt (dot2 (xz d) (xz d)).
Definition ratio_ok (p : dparams) (a b : vec3) : Prop := f_cast f_floor_Z 0 U64_MAX (f_div (edge_len a b) (dp_dist p)) < U64_MAX.

Lemma f_cast_range r lo hi x : lo ≤ 0 ≤ hi → lo ≤ f_cast r lo hi x ≤ hi.
Proof. intros. unfold f_cast, sat. destruct x as [| [] | |]; lia. Qed.

Section tess.
  Context (B : Prop) (p : dparams) (hp : hpatch).
  Definition height_at (f : vec3) (h : Z) : Prop := get_height f (dp_ics p) (dp_ch p) (dp_radius p) hp = Done h.
  (** Heights can be looked up at the positions [okp]. *)
  Context (okp : vec3 → Prop) (Hh : ∀ f, okp f → ends B (get_height f (dp_ics p) (dp_ch p) (dp_radius p) hp) (λ _, True)).

  Lemma height_ends f : okp f → ends B (get_height f (dp_ics p) (dp_ch p) (dp_radius p) hp) (height_at f).
  Proof. intros Hf. specialize (Hh f Hf). unfold height_at. destruct (get_height _ _ _ _ _); done. Qed.

  (** The [k]-th of [n]+1 samples of an edge. *)
  Definition edge_pos (a b : vec3) (n k : nat) : vec3 := v_add a (v_scale (v_sub b a) (f_div (f_of_Z (Z.of_nat k)) (f_of_Z (Z.of_nat n)))).
  Definition edge_sample (a b : vec3) (n k : nat) (v : vec3) : Prop :=
    ∃ h, height_at (edge_pos a b n k) h ∧ v = V3 (v_x (edge_pos a b n k)) (f_mul (f_of_Z h) (dp_ch p)) (v_z (edge_pos a b n k)).
  Definition far3 (v a b : vec3) : Prop := f_lt (f_mul (dp_err p) (dp_err p)) (seg_dist3 v a b) = true.

  (** The number of segments of an edge when there are [nv] vertices: one more than the
      sampling distance fits in, but at most 31, and no more than there is room for. *)
  Definition edge_count (nv : nat) (a b : vec3) (n : nat) : Prop :=
    Z.of_nat n = Z.min (Z.min (1 + f_cast f_floor_Z 0 U64_MAX (f_div (edge_len a b) (dp_dist p))) 31) (126 - Z.of_nat nv).

  Lemma edge_segments_ends nverts a b : (ratio_ok p a b ∨ B) → ((nverts ≤ 126)%nat ∨ B) →
    ends B (edge_segments p nverts (v_sub b a)) (λ nn, (nn ≤ 31)%nat ∧ (nverts + nn ≤ 126)%nat ∧ edge_count nverts a b nn).
  Proof.
    intros Hr Hn. unfold edge_segments. cbv zeta. fold (edge_len a b). unfold ratio_ok in Hr.
    pose proof (f_cast_range f_floor_Z 0 U64_MAX (f_div (edge_len a b) (dp_dist p)) ltac:(unfold U64_MAX; lia)) as Hc.
    set (c := f_cast _ _ _ _) in *. unfold chk.
    destruct ((0 <=? 1 + c) && (1 + c <=? U64_MAX)) eqn:E; cbn [obind ends]; [|destruct Hr; [lia|done]].
    unfold edge_count. fold c. unfold MAX_VERTS, MAX_EDGE. set (nn := Z.to_nat _).
    assert (nn ≤ 31)%nat by (unfold nn; lia). assert (Z.of_nat nn = Z.min (1 + c) 31) as Enn by (unfold nn; lia).
    destruct (127 <=? nverts + nn)%nat eqn:E1.
    - destruct (127 - 1 <? nverts)%nat eqn:E2; cbn [ends]; [destruct Hn; [lia|done]|lia].
    - cbn [ends]. lia.
  Qed.

  Lemma edge_samples_ends a b nn : (∀ k, (k ≤ nn)%nat → okp (edge_pos a b nn k)) →
    ends B (edge_samples p hp a (v_sub b a) nn) (λ l, length l = S nn ∧ ∀ k v, l !! k = Some v → edge_sample a b nn k v).
  Proof.
    intros Hok. unfold edge_samples. eapply ends_mono; [apply (ends_mapM B _ _ (λ k v, edge_sample a b nn k v))|].
    - intros k k' [-> Hk]%lookup_seq. cbn [plus]. cbv zeta. fold (edge_pos a b nn k).
      eapply ends_bind; [apply height_ends, Hok; lia|]. intros h Hhh. cbn. by exists h.
    - intros l [Hl HQ]. by rewrite seq_length in Hl.
  Qed.

  Lemma kept_simplified samples nn r : length samples = S nn → kept nn r →
    (∀ i a b, r !! i = Some a → r !! S i = Some b → span_ok (dp_err p) samples a b) → simplified far3 samples r.
  Proof.
    intros Hl (H0 & H2 & Hn & Hz & Hs) Hok. split; [done|]. split; [done|]. split; [rewrite Hl, Hn; f_equal; lia|].
    split.
    - intros i a b Ha Hb. destruct (decide (nn = 0%nat)); [right; lia|left; by eapply Hs].
    - intros i a b m v va vb Ha Hb Hm Hv Hva Hvb. unfold far3. by rewrite (Hok i a b Ha Hb m v va vb Hm Hv Hva Hvb).
  Qed.

  Lemma inner_lookup {A} (l : list A) i x : inner l !! i = Some x → l !! S i = Some x ∧ (S i < length l - 1)%nat.
  Proof. unfold inner. intros [H Hi]%lookup_take_Some. rewrite lookup_drop in H. cbn in H. split; [done|]. lia. Qed.

  Lemma inner_length {A} (l : list A) : length (inner l) = (length l - 2)%nat.
  Proof. unfold inner. rewrite take_length, drop_length. lia. Qed.

  (** The output of one edge: the vertices after [j], in the direction of the polygon. *)
  Definition edge_out (nv : nat) (a b : vec3) (e : list vec3) : Prop :=
    let '(a', b', swapped) := edge_order a b in
    edge_detail far3 (edge_sample a' b') (edge_count nv a' b') (if swapped : bool then reverse e else e).

  Lemma mapM_get {A} (l : list A) is : (∀ i, i ∈ is → (i < length l)%nat) →
    ∃ vs, mapM_o (get l) is = Done vs ∧ Forall2 (λ k v, l !! k = Some v) is vs.
  Proof.
    induction is as [|i is IH]; intros H; [by exists []|].
    destruct (get_lt l i) as (a & E & Ha); [apply H; set_solver|]. destruct IH as (vs & E' & HF); [intros; apply H; set_solver|].
    exists (a :: vs). cbn. rewrite E, E'. cbn. split; [done|]. by constructor.
  Qed.

  Lemma push_vertices vs st : (dv_n st + length vs ≤ length (dv_verts st))%nat → (dv_nh st + length vs ≤ length (dv_hull st))%nat →
    ∃ st', foldM push_edge_vertex vs st = Done st' ∧
      dv_n st' = (dv_n st + length vs)%nat ∧ dv_nh st' = (dv_nh st + length vs)%nat ∧
      length (dv_verts st') = length (dv_verts st) ∧ length (dv_hull st') = length (dv_hull st) ∧
      take (dv_n st') (dv_verts st') = take (dv_n st) (dv_verts st) ++ vs ∧
      take (dv_nh st') (dv_hull st') = take (dv_nh st) (dv_hull st) ++ seq (dv_n st) (length vs).
  Proof.
    revert st. induction vs as [|v vs IH]; intros st Hn Hh'.
    { exists st. cbn. rewrite !app_nil_r, !Nat.add_0_r. split_and!; done. }
    cbn [foldM length] in *. unfold push_edge_vertex at 1, push_hull. rewrite put_lt by lia. cbn [obind dv_hull dv_nh dv_verts dv_n].
    rewrite put_lt by lia. cbn [obind dv_hull dv_nh dv_verts dv_n].
    match goal with |- context [foldM _ _ ?s] => set (s1 := s) end.
    destruct (IH s1) as (st' & E & H1 & H2 & H3 & H4 & H5 & H6); [unfold s1; cbn; rewrite insert_length; lia..|].
    exists st'. rewrite E. unfold s1 in *. cbn [dv_hull dv_nh dv_verts dv_n] in *. rewrite insert_length in H3. rewrite insert_length in H4.
    split; [done|]. split; [lia|]. split; [lia|]. split; [done|]. split; [done|].
    rewrite H5, H6, !take_insert_snoc by lia. rewrite <-!app_assoc. done.
  Qed.

  Lemma tess_edge_ends inp j i a b st : inp !! j = Some a → inp !! i = Some b →
    (∀ n k, (k ≤ n)%nat → (n ≤ 31)%nat → okp (edge_pos a b n k) ∧ okp (edge_pos b a n k)) →
    (ratio_ok p a b ∧ ratio_ok p b a ∨ B) → ((dv_n st ≤ 126)%nat ∨ B) →
    length (dv_verts st) = 256%nat → length (dv_hull st) = 127%nat → (dv_nh st ≤ dv_n st)%nat →
    ends B (tess_edge p hp inp j i st) (λ st', ∃ e, edge_out (dv_n st) a b e ∧ (dv_n st' ≤ 126)%nat ∧
      dv_n st' = (dv_n st + length e)%nat ∧ dv_nh st' = (dv_nh st + S (length e))%nat ∧
      length (dv_verts st') = 256%nat ∧ length (dv_hull st') = 127%nat ∧
      take (dv_n st') (dv_verts st') = take (dv_n st) (dv_verts st) ++ e ∧
      take (dv_nh st') (dv_hull st') = take (dv_nh st) (dv_hull st) ++ j :: seq (dv_n st) (length e)).
  Proof.
    intros Ha Hb Hokp Hr Hn Hlv Hlh Hnh. unfold tess_edge, get at 1 2. rewrite Ha, Hb. cbn [obind].
    unfold edge_out. destruct (edge_order a b) as [[a' b'] swapped] eqn:Eo.
    assert (ratio_ok p a' b' ∨ B) as Hr'.
    { destruct Hr as [[Hr1 Hr2]|]; [left|by right]. unfold edge_order in Eo.
      repeat case_match; injection Eo as <- <- _; done. }
    eapply ends_bind; [by apply edge_segments_ends|]. intros nn (Hnn & Hnn' & Hcount).
    eapply ends_bind; [apply edge_samples_ends|].
    { intros k Hk. destruct (Hokp nn k Hk Hnn). unfold edge_order in Eo. repeat case_match; injection Eo as <- <- _; done. }
    intros edge [Hle Hse].
    destruct (edge_simplify_spec (dp_err p) edge nn (2 * MAX_EDGE) [0%nat; nn] 0) as (idx & -> & Hk & Hok);
      [done|done| |cbn; lia|intros; lia|unfold MAX_EDGE; cbn [length]; lia|].
    { split; [done|]. split; [done|]. split; [done|]. split; [done|]. intros [|[|k]] x y; cbn; [|done..]. intros [= <-] [= <-]. lia. }
    cbn [obind]. unfold push_hull. rewrite put_lt by lia. cbn [obind].
    fold (inner idx).
    destruct (mapM_get edge (inner idx)) as (e0 & Ee0 & HF0).
    { intros k [x Hx]%elem_of_list_lookup. apply inner_lookup in Hx as [Hx _]. pose proof (kept_range _ _ _ _ Hk Hx). lia. }
    assert (∃ e, mapM_o (get edge) (if swapped then rev (inner idx) else inner idx) = Done e ∧
                 Forall2 (λ k v, edge !! k = Some v) (inner idx) (if swapped then reverse e else e)) as (e & -> & HF).
    { destruct swapped; [|by exists e0].
      destruct (mapM_get edge (rev (inner idx))) as (e & Ee & HF).
      - intros k Hkk. rewrite <-rev_alt in Hkk || idtac. apply elem_of_list_In, in_rev, elem_of_list_In in Hkk.
        apply elem_of_list_lookup in Hkk as [x Hx]. apply inner_lookup in Hx as [Hx _]. pose proof (kept_range _ _ _ _ Hk Hx). lia.
      - exists e. split; [done|]. apply Forall2_reverse in HF. unfold reverse in HF at 1. rewrite <-rev_alt, rev_involutive in HF. done. }
    cbn [obind].
    assert (length e = length idx - 2)%nat as Hlen.
    { apply Forall2_length in HF. rewrite inner_length in HF. destruct swapped; rewrite ?reverse_length in HF; done. }
    assert (length e ≤ nn)%nat as Hlen'.
    { destruct (decide (nn = 0%nat)) as [->|Hnz]; [|pose proof (kept_len _ _ Hk Hnz); lia].
      destruct Hk as (_ & _ & _ & Hz & _). rewrite Hz in Hlen by done. lia. }
    match goal with |- context [foldM _ _ ?s] => set (s1 := s) end.
    destruct (push_vertices e s1) as (st' & -> & H1 & H2 & H3 & H4 & H5 & H6); [unfold s1; cbn; rewrite ?insert_length; lia..|].
    cbn [ends]. unfold s1 in *. cbn [dv_hull dv_nh dv_verts dv_n] in *. rewrite insert_length in H4.
    exists e. split.
    { exists nn, edge, idx. split; [done|]. split; [done|]. split; [done|]. split; [done|]. split; [by eapply kept_simplified|done]. }
    split; [lia|]. split; [done|]. split; [lia|]. split; [congruence|]. split; [congruence|]. split; [done|].
    rewrite H6, take_insert_snoc by lia. by rewrite <-app_assoc.
  Qed.

  (** The corner before corner [i]. *)
  Definition before (n i : nat) : nat := if (i =? 0)%nat then (n - 1)%nat else (i - 1)%nat.

  (** What [tess_outline] leaves in the buffers. *)
  Definition outlined (inp : list vec3) (nin : nat) (E : list (list vec3)) (st : dverts) : Prop :=
    length (dv_verts st) = 256%nat ∧ length (dv_hull st) = 127%nat ∧
    dv_n st = (nin + length (concat E))%nat ∧ dv_nh st = (length E + length (concat E))%nat ∧
    take (dv_n st) (dv_verts st) = take nin inp ++ concat E ∧
    take (dv_nh st) (dv_hull st) = outline_from (nin - 1) 0 nin E ∧
    ∀ i e, E !! i = Some e → ∀ a b, inp !! before nin i = Some a → inp !! i = Some b → edge_out (nin + length (concat (take i E))) a b e.

  Lemma tess_outline_ends inp nin verts :
    (nin ≤ length inp)%nat → (0 < nin ∨ B)%nat → (nin ≤ 126 ∨ B)%nat → 
    (B ∨ ∀ a b, a ∈ inp → b ∈ inp → ratio_ok p a b) →
    (∀ a b n k, a ∈ inp → b ∈ inp → (k ≤ n)%nat → (n ≤ 31)%nat → okp (edge_pos a b n k)) →
    length verts = 256%nat → (nin ≤ 256)%nat → take nin verts = take nin inp →
    ends B (tess_outline p hp inp nin (DVs verts nin (repeat 0%nat MAX_VERTS) 0))
      (λ st, ∃ E, length E = nin ∧ (0 < nin)%nat ∧ (dv_n st ≤ 126)%nat ∧ outlined inp nin E st).
  Proof.
    intros Hin H0 Hn Hr Hokp Hv Hn' Hvi. unfold tess_outline. destruct (nin =? 0)%nat eqn:E0; [cbn; destruct H0; [lia|done]|].
    eapply ends_bind.
    - apply (ends_seq_inv B (λ i '(j, st), j = before nin i ∧ (i ≤ nin)%nat ∧ (0 < i → dv_n st ≤ 126)%nat ∧ ∃ E, length E = i ∧ outlined inp nin E st)).
      + split; [by unfold before|]. split; [lia|]. split; [lia|]. exists []. split; [done|]. unfold outlined. cbn.
        rewrite Nat.add_0_r, app_nil_r. split_and!; done.
      + intros i [j st] Hi (-> & _ & Hd & E & HlE & Ho). destruct Ho as (Hl1 & Hl2 & Hdn & Hdh & Ht1 & Ht2 & He).
        destruct (lookup_lt_is_Some_2 inp (before nin i)) as [a Ha]; [unfold before; case_match; lia|].
        destruct (lookup_lt_is_Some_2 inp i) as [b Hb]; [lia|].
        eapply ends_bind; [eapply (tess_edge_ends inp _ i a b)|].
        * done.
        * done.
        * intros n k Hk Hn31. apply elem_of_list_lookup_2 in Ha, Hb. split; by apply Hokp.
        * destruct Hr as [|Hr]; [by right|left]. apply elem_of_list_lookup_2 in Ha, Hb. by split; apply Hr.
        * destruct (decide (i = 0%nat)) as [->|]; [|left; apply Hd; lia].
          destruct E; [|done]. rewrite Hdn. cbn. destruct Hn as [Hn|]; [left; lia|by right].
        * done.
        * done.
        * rewrite Hdn, Hdh. lia.
        * cbn. intros st' (e & Hout & H1 & H2 & H3 & H4 & H5 & H6 & H7).
          split; [unfold before; destruct (i + 1 =? 0)%nat eqn:?; lia|]. split; [lia|]. split; [done|].
          exists (E ++ [e]). split; [rewrite app_length; cbn; lia|].
          split; [done|]. split; [done|]. rewrite concat_app, !app_length. cbn [length concat]. rewrite app_nil_r.
          split; [lia|]. split; [lia|]. split; [by rewrite H6, Ht1, app_assoc|].
          split.
          -- rewrite H7, Ht2, outline_snoc. f_equal. rewrite Hdn. f_equal. unfold before.
             destruct E as [|e' E]; cbn [length] in *; [by subst i|]. destruct (i =? 0)%nat eqn:?; lia.
          -- intros k e' [Hk|[Hk Hk']]%lookup_app_Some; [rewrite take_app_le by (apply lookup_lt_Some in Hk; lia); by eapply He|].
             destruct (k - length E)%nat eqn:Ek; [|done]. injection Hk' as <-. assert (k = length E) as -> by lia. rewrite take_app, <-Hdn, HlE.
             intros a' b'. rewrite Ha, Hb. intros [= <-] [= <-]. done.
    - intros [j st] (_ & _ & Hd & E & HlE & Ho). cbn in Hd |- *. exists E. split; [lia|]. split; [lia|]. split; [apply Hd; lia|done].
  Qed.
End tess.
