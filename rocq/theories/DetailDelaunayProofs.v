(** The Delaunay triangulation of [delaunay_hull] returns, with oriented
    triangles of three different vertices. *)
From Verif Require Import Base FlowProofs ModelMath FloatOrder ModelHeightfield ModelCompact ModelContours ModelPoly ModelTriMesh ModelMarkArea ModelDetail SpecDetail.
Local Open Scope Z_scope.

Section delaunay.
  Context (pts : list vec3) (npts : nat) (Hpts : (npts ≤ length pts)%nat).

  (** A face: the edge it was built on, and the point to its left. *)
  Definition face_ok (t : dtri) : Prop :=
    let '(a, b, c) := t in
    (a < npts ∧ b < npts ∧ c < npts ∧ a ≠ b ∧ a ≠ c ∧ b ≠ c)%nat ∧
    ∃ pa pb pc, pts !! a = Some pa ∧ pts !! b = Some pb ∧ pts !! c = Some pc ∧
      f_lt c_1em5 (cross2 (xz pa) (xz pb) (xz pc)) = true.
  Definition dir_edge (t : dtri) (a b : nat) : Prop :=
    let '(x, y, z) := t in (a = x ∧ b = y) ∨ (a = y ∧ b = z) ∨ (a = z ∧ b = x).
  Definition side (F : list dtri) (e : ev) (a b : nat) : Prop :=
    match e with ERegular f => ∃ t, F !! f = Some t ∧ dir_edge t a b | _ => True end.
  Definition edge_okq (F : list dtri) (q : quad) : Prop :=
    ∃ a b, q_0 q = ERegular a ∧ q_1 q = ERegular b ∧ (a < npts ∧ b < npts ∧ a ≠ b)%nat ∧
      side F (q_2 q) a b ∧ side F (q_3 q) b a.
  Definition est (F : list dtri) (edges : list quad) (nedges : nat) : Prop :=
    length edges = (npts * 10)%nat ∧ (nedges ≤ npts * 10)%nat ∧ ∀ k q, (k < nedges)%nat → edges !! k = Some q → edge_okq F q.

  Lemma side_mono F t e a b : side F e a b → side (F ++ [t]) e a b.
  Proof. destruct e; [|done..]. intros (t' & Ht & Hd). exists t'. split; [|done]. by apply lookup_app_l_Some. Qed.
  Lemma est_mono F t edges nedges : est F edges nedges → est (F ++ [t]) edges nedges.
  Proof.
    intros (H1 & H2 & H3). split; [done|]. split; [done|]. intros k q Hk Hq. destruct (H3 k q Hk Hq) as (a & b & Ha & Hb & Hl & Hs1 & Hs2).
    exists a, b. split; [done|]. split; [done|]. split; [done|]. split; by apply side_mono.
  Qed.

  Lemma ev_eqb_eq a b : ev_eqb a b = true ↔ a = b.
  Proof. destruct a, b; cbn; try (split; [done|intros; simplify_eq; done]). rewrite Nat.eqb_eq. split; [by intros ->|by intros [= ->]]. Qed.

  Lemma add_dedge_runs F s t l r edges nedges :
    est F edges nedges → edge_okq F (Q4 s t l r) →
    runs (add_dedge (npts * 10) s t l r (edges, nedges)) (λ '(edges', nedges'), est F edges' nedges').
  Proof.
    intros (H1 & H2 & H3) Hq. unfold add_dedge. destruct (npts * 10 <=? nedges)%nat eqn:E; [done|].
    destruct (find_dedge _ _ _ _); [done|]. rewrite put_lt by lia. cbn. split; [by rewrite insert_length|]. split; [lia|].
    intros k q Hk Hkq. destruct (decide (k = nedges)) as [->|].
    - rewrite list_lookup_insert in Hkq by lia. by injection Hkq as <-.
    - rewrite list_lookup_insert_ne in Hkq by done. apply (H3 k); [lia|done].
  Qed.

  Lemma update_face_runs F edges nedges k a b f : est F edges nedges → (k < nedges)%nat → side F f a b →
    runs (update_face_at edges k (ERegular a) (ERegular b) f) (λ edges', est F edges' nedges).
  Proof.
    intros (H1 & H2 & H3) Hk Hf. unfold update_face_at. destruct (get_lt edges k) as (q & -> & Hq); [lia|]. cbn [obind].
    rewrite put_lt by lia. cbn [runs]. split; [by rewrite insert_length|]. split; [done|].
    intros k' q' Hk' Hq'. destruct (decide (k' = k)) as [->|].
    2:{ rewrite list_lookup_insert_ne in Hq' by done. by apply (H3 k'). }
    rewrite list_lookup_insert in Hq' by lia. injection Hq' as <-. specialize (H3 k q Hk Hq) as (x & y & Hx & Hy & Hl & Hs1 & Hs2).
    unfold update_left_face. rewrite Hx, Hy.
    destruct (ev_eqb (ERegular x) (ERegular a)) eqn:E1, (ev_eqb (ERegular y) (ERegular b)) eqn:E2, (ev_undef (q_2 q)); cbn [andb];
      try (apply ev_eqb_eq in E1, E2; injection E1 as ->; injection E2 as ->; exists a, b; cbn; split_and!; (done || lia)).
    all: destruct (ev_eqb (ERegular y) (ERegular a)) eqn:E3, (ev_eqb (ERegular x) (ERegular b)) eqn:E4, (ev_undef (q_3 q)); cbn [andb];
      try (exists x, y; split_and!; (done || lia)).
    all: apply ev_eqb_eq in E3, E4; injection E3 as ->; injection E4 as ->; exists b, a; cbn; split_and!; (done || lia).
  Qed.

  Lemma find_dedge_lt edges nedges s t k : find_dedge edges nedges s t = Some k → (k < nedges)%nat.
  Proof.
    unfold find_dedge. intros ([i q] & H & ->)%fmap_Some. apply list_find_Some in H as [H _].
    apply lookup_take_Some in H as [_ ?]. done.
  Qed.

  Lemma attach_edge_runs F f a b edges nedges : est F edges nedges → side F (ERegular f) a b → (a < npts ∧ b < npts ∧ a ≠ b)%nat →
    runs (attach_edge (npts * 10) f a b (edges, nedges)) (λ '(edges', nedges'), est F edges' nedges').
  Proof.
    intros He Hf Hab. unfold attach_edge. destruct (find_dedge _ _ _ _) as [k|] eqn:Ef.
    - apply find_dedge_lt in Ef. pose proof (update_face_runs F edges nedges k a b (ERegular f) He Ef Hf) as H.
      destruct (update_face_at _ _ _ _ _); [|done..]. cbn in *. done.
    - apply add_dedge_runs; [done|]. exists a, b. split_and!; (done || lia).
  Qed.

  Lemma overlap_edges_runs F es s1 t1 : (∀ q, q ∈ es → edge_okq F q) → (s1 < npts)%nat → (t1 < npts)%nat →
    runs (overlap_edges pts es s1 t1) (λ _, True).
  Proof.
    intros He Hs Ht. induction es as [|q es IH]; [done|]. cbn [overlap_edges].
    destruct (He q) as (a & b & -> & -> & Hab & _); [set_solver|]. cbn [ev_unwrap obind].
    assert (runs (overlap_edges pts es s1 t1) (λ _, True)) as IH' by (apply IH; intros; apply He; set_solver).
    destruct ((a =? s1) || _ || _ || _)%nat; [done|].
    destruct (get_lt pts a) as (? & -> & _); [lia|]. destruct (get_lt pts b) as (? & -> & _); [lia|].
    destruct (get_lt pts s1) as (? & -> & _); [lia|]. destruct (get_lt pts t1) as (? & -> & _); [lia|]. cbn [obind].
    destruct (overlap_seg _ _ _ _); done.
  Qed.

  Lemma facet_point_runs F es s t : (∀ q, q ∈ es → edge_okq F q) → (s < npts ∧ t < npts ∧ s ≠ t)%nat →
    runs (facet_point pts npts es s t) (λ '(u, _), u = npts ∨ face_ok (s, t, u)).
  Proof.
    intros He Hst. unfold facet_point. 
    apply (runs_mono _ (λ '(u, c), u = npts ∨ face_ok (s, t, u))); [|by intros [u c]].
    apply runs_ends. apply ends_keep; [by left|]. intros u [pt circle] Hu Hpt. apply elem_of_seq in Hu.
    destruct ((u =? s) || (u =? t))%nat eqn:Eu; [done|].
    destruct (get_lt pts s) as (ps & -> & Hps); [lia|]. destruct (get_lt pts t) as (pt' & -> & Hpt'); [lia|].
    destruct (get_lt pts u) as (pu & -> & Hpu); [lia|]. cbn [obind].
    destruct (f_lt c_1em5 _) eqn:Ec; cbn [negb]; [|done].
    assert (face_ok (s, t, u)) as Hok.
    { split; [lia|]. by exists ps, pt', pu. }
    assert (∀ c : option (vec3 * f32), ends False (Done (u, c)) (λ '(u, _), u = npts ∨ face_ok (s, t, u))) as Hd by (intros; right; done).
    destruct circle as [[c rsq]|]; [|apply Hd].
    cbv zeta. case_match; [done|]. case_match; [apply Hd|].
    eapply ends_bind; [apply runs_ends, (overlap_edges_runs F); [done|lia..]|]. intros [] _; [done|].
    eapply ends_bind; [apply runs_ends, (overlap_edges_runs F); [done|lia..]|]. intros [] _; [done|]. apply Hd.
  Qed.

  Definition fst3 (st : list quad * nat * nat) : Prop :=
    ∃ F, length F = st.2 ∧ Forall face_ok F ∧ est F st.1.1 st.1.2.

  Lemma complete_facet_runs e st : fst3 st → (e < st.1.2)%nat →
    runs (complete_facet pts npts (npts * 10) e st) fst3.
  Proof.
    destruct st as [[edges nedges] nfaces]. intros (F & HlF & HF & He) Hk. cbn [fst snd] in *. unfold complete_facet.
    pose proof He as (H1 & H2 & H3). destruct (get_lt edges e) as (q & -> & Hq); [lia|]. cbn [obind].
    destruct (H3 e q Hk Hq) as (a & b & Ha & Hb & Hab & _). rewrite Ha, Hb.
    assert (∀ s t, (s < npts ∧ t < npts ∧ s ≠ t)%nat →
      runs (let! s := ev_unwrap (ERegular s) in let! t := ev_unwrap (ERegular t) in
            let! (pt, _) := facet_point pts npts (take nedges edges) s t in
            if (pt <? npts)%nat then
              let! edges := update_face_at edges e (ERegular s) (ERegular t) (ERegular nfaces) in
              let! st := attach_edge (npts * 10) nfaces pt s (edges, nedges) in
              let! (edges, nedges) := attach_edge (npts * 10) nfaces t pt st in
              Done (edges, nedges, S nfaces)
            else
              let! edges := update_face_at edges e (ERegular s) (ERegular t) EHull in
              Done (edges, nedges, nfaces)) fst3) as Hmain.
    { intros s t Hst. cbn [ev_unwrap obind].
      eapply runs_bind; [apply (facet_point_runs F); [|done]|].
      { intros q' [k' Hk']%elem_of_list_lookup. apply lookup_take_Some in Hk' as [Hk' ?]. by eapply H3. }
      intros [u c] Hu. destruct (u <? npts)%nat eqn:Eu.
      - destruct Hu as [->|Hu]; [lia|]. pose proof Hu as [Hne _].
        assert (est (F ++ [(s, t, u)]) edges nedges) as He' by by apply est_mono.
        assert (∀ x y, dir_edge (s, t, u) x y → side (F ++ [(s, t, u)]) (ERegular nfaces) x y) as Hside.
        { intros x y Hd. exists (s, t, u). split; [|done]. rewrite lookup_app_r by lia. by rewrite HlF, Nat.sub_diag. }
        eapply runs_bind; [apply (update_face_runs (F ++ [(s, t, u)]) edges nedges); [done|done|apply Hside; by left]|].
        intros edges1 He1.
        eapply runs_bind; [apply (attach_edge_runs (F ++ [(s, t, u)])); [done|apply Hside; right; right; done|lia]|].
        intros [edges2 nedges2] He2.
        eapply runs_bind; [apply (attach_edge_runs (F ++ [(s, t, u)])); [done|apply Hside; right; left; done|lia]|].
        intros [edges3 nedges3] He3. cbn. exists (F ++ [(s, t, u)]). cbn. split; [rewrite app_length; cbn; lia|].
        split; [|done]. apply Forall_app. split; [done|]. by constructor.
      - eapply runs_bind; [by apply (update_face_runs F edges nedges)|].
        intros edges1 He1. cbn. by exists F. }
    destruct (ev_undef (q_2 q)); [apply Hmain; lia|]. destruct (ev_undef (q_3 q)); [apply Hmain; lia|].
    cbn. by exists F.
  Qed.

  Lemma complete_facet_grows e st : fst3 st → (e < st.1.2)%nat →
    runs (complete_facet pts npts (npts * 10) e st) (λ st', fst3 st' ∧ (st.1.2 ≤ st'.1.2)%nat).
  Proof.
    intros H1 H2. pose proof (complete_facet_runs e st H1 H2) as H.
    destruct (complete_facet _ _ _ _ _) as [st'| |] eqn:E; [|done..]. cbn in *. split; [done|].
    destruct st as [[edges nedges] nfaces]. unfold complete_facet in E. cbn [fst snd].
    apply obind_done in E as (q & _ & E).
    assert (∀ mx f a b es n es' n', attach_edge mx f a b (es, n) = Done (es', n') → (n ≤ n')%nat) as Hatt.
    { intros mx f a b es n es' n' Ea. unfold attach_edge in Ea. destruct (find_dedge _ _ _ _).
      - apply obind_done in Ea as (? & _ & [= -> ->]). lia.
      - unfold add_dedge in Ea. destruct (_ <=? _)%nat; [injection Ea as -> ->; lia|].
        destruct (find_dedge _ _ _ _); [injection Ea as -> ->; lia|].
        apply obind_done in Ea as (? & _ & [= -> <-]). lia. }
    destruct (if ev_undef (q_2 q) then _ else _) as [[s t]|]; [|by injection E as <-].
    apply obind_done in E as (? & _ & E). apply obind_done in E as (? & _ & E).
    apply obind_done in E as ([pt c] & _ & E). destruct (pt <? npts)%nat.
    - apply obind_done in E as (? & _ & E). apply obind_done in E as ([es1 n1] & E1 & E). apply obind_done in E as ([es2 n2] & E2 & E).
      injection E as <-. cbn. apply Hatt in E1, E2. lia.
    - apply obind_done in E as (? & _ & E). injection E as <-. cbn. lia.
  Qed.

  Lemma complete_loop_runs fuel k st : fst3 st → (npts * 10 < fuel + k)%nat → (k ≤ npts * 10)%nat →
    runs (complete_loop fuel pts npts (npts * 10) k st) fst3.
  Proof.
    revert k st. induction fuel as [|fuel IH]; intros k st Hst Hf Hkm; cbn [complete_loop]; [lia|].
    destruct (k <? st.1.2)%nat eqn:Ek; cbn [negb]; [|done].
    assert (∀ st, fst3 st → (k < st.1.2)%nat → ∃ q, get st.1.1 k = Done q) as Hget.
    { intros [[es n] f] (F & _ & _ & Hl & Hle & _) Hk. cbn in *. destruct (get_lt es k) as (q & -> & _); [lia|]. by exists q. }
    destruct (Hget st Hst) as (q & ->); [lia|]. cbn [obind].
    eapply (runs_bind _ _ (λ st', fst3 st' ∧ (st.1.2 ≤ st'.1.2)%nat)).
    { destruct (ev_undef (q_2 q)); [apply complete_facet_grows; [done|lia]|]. cbn. split; [done|lia]. }
    intros st1 [Hst1 Hle1]. destruct (Hget st1 Hst1) as (q1 & ->); [lia|]. cbn [obind].
    eapply (runs_bind _ _ fst3).
    { destruct (ev_undef (q_3 q1)); [apply complete_facet_runs; [done|lia]|done]. }
    intros st2 Hst2. apply IH; [done|lia|]. destruct Hst as (F & _ & _ & _ & Hle & _). lia.
  Qed.

  (** *** Reading the faces off the edges *)
  Definition part (t : dtri) (q : quad) : Prop :=
    (q_0 q = EUndefined ∧ q_1 q = EUndefined ∧ q_2 q = EUndefined) ∨
    ∃ a b, q_0 q = ERegular a ∧ q_1 q = ERegular b ∧ dir_edge t b a ∧
      (q_2 q = EUndefined ∨ ∃ c, q_2 q = ERegular c ∧ dir_edge t a c ∧ dir_edge t c b).

  Lemma dir_third t a b c : face_ok t → dir_edge t b a → dir_edge t a c → dir_edge t c b.
  Proof.
    destruct t as [[x y] z]. intros [(_ & _ & _ & H1 & H2 & H3) _] Hab Hac. unfold dir_edge in *.
    destruct Hab as [[-> ->]|[[-> ->]|[-> ->]]], Hac as [[? ->]|[[? ->]|[? ->]]]; try (exfalso; congruence); auto.
  Qed.

  Lemma enter_slot F f t (tris : list quad) (g : quad → quad) : Forall face_ok F → Forall2 part F tris → F !! f = Some t →
    (∀ q, part t q → part t (g q)) →
    runs (let! q := get tris f in put tris f (g q)) (λ tris', Forall2 part F tris').
  Proof.
    intros HF Hp Hf Hg. pose proof (Forall2_length _ _ _ Hp) as Hl. pose proof (lookup_lt_Some _ _ _ Hf).
    destruct (get_lt tris f) as (q & -> & Hq); [lia|]. cbn [obind]. rewrite put_lt by lia. cbn.
    rewrite <-(list_insert_id F f t) by done. apply Forall2_insert; [done|]. apply Hg. by eapply Forall2_lookup_lr.
  Qed.

  Lemma enter_edge_runs F q tris : Forall face_ok F → edge_okq F q → Forall2 part F tris →
    runs (enter_edge q tris) (λ tris', Forall2 part F tris').
  Proof.
    intros HF (a & b & Ha & Hb & Hab & Hs2 & Hs3) Hp. unfold enter_edge.
    eapply (runs_bind _ _ (λ tris', Forall2 part F tris')).
    - unfold enter_left. destruct (q_3 q) as [f| |]; [|done..]. destruct Hs3 as (t & Hf & Hd).
      assert (face_ok t) as Ht by (by eapply Forall_lookup_1).
      apply (enter_slot F f t tris (λ t, if ev_undef (q_0 t) then Q4 (q_0 q) (q_1 q) (q_2 t) (q_3 t)
                else if ev_eqb (q_0 t) (q_1 q) then Q4 (q_0 t) (q_1 t) (q_0 q) (q_3 t)
                else if ev_eqb (q_1 t) (q_0 q) then Q4 (q_0 t) (q_1 t) (q_1 q) (q_3 t)
                else t)); [done|done|done|].
      intros r [(H0 & H1 & H2)|(x & y & Hx & Hy & Hd' & Hz)].
      + rewrite H0, Ha, Hb. cbn [ev_undef]. right. exists a, b. cbn. auto.
      + rewrite Hx, Hy, Ha, Hb. cbn [ev_undef ev_eqb].
        destruct (x =? b)%nat eqn:Exb; [|destruct (y =? a)%nat eqn:Eya].
        * apply Nat.eqb_eq in Exb as ->. right. exists b, y. cbn. split_and!; try done. right. exists a.
          split; [done|]. split; [done|]. by eapply dir_third.
        * apply Nat.eqb_eq in Eya as ->. right. exists x, a. cbn. split_and!; try done. right. exists b.
          split; [done|]. pose proof (dir_third t a b x Ht Hd Hd'). done.
        * right. exists x, y. auto.
    - intros tris1 Hp1. unfold enter_right. destruct (q_2 q) as [f| |]; [|done..]. destruct Hs2 as (t & Hf & Hd).
      assert (face_ok t) as Ht by (by eapply Forall_lookup_1).
      apply (enter_slot F f t tris1 (λ t, if ev_undef (q_0 t) then Q4 (q_1 q) (q_0 q) (q_2 t) (q_3 t)
                else if ev_eqb (q_0 t) (q_0 q) then Q4 (q_0 t) (q_1 t) (q_1 q) (q_3 t)
                else if ev_eqb (q_1 t) (q_1 q) then Q4 (q_0 t) (q_1 t) (q_0 q) (q_3 t)
                else t)); [done|done|done|].
      intros r [(H0 & H1 & H2)|(x & y & Hx & Hy & Hd' & Hz)].
      + rewrite H0, Ha, Hb. cbn [ev_undef]. right. exists b, a. cbn. auto.
      + rewrite Hx, Hy, Ha, Hb. cbn [ev_undef ev_eqb].
        destruct (x =? a)%nat eqn:Exb; [|destruct (y =? b)%nat eqn:Eya].
        * apply Nat.eqb_eq in Exb as ->. right. exists a, y. cbn. split_and!; try done. right. exists b.
          split; [done|]. split; [done|]. by eapply dir_third.
        * apply Nat.eqb_eq in Eya as ->. right. exists x, b. cbn. split_and!; try done. right. exists a.
          split; [done|]. pose proof (dir_third t b a x Ht Hd Hd'). done.
        * right. exists x, y. auto.
  Qed.

  Lemma swap_remove_elem {A} (l : list A) i x : (i < length l)%nat → x ∈ swap_remove l i → x ∈ l.
  Proof.
    intros Hi. unfold swap_remove. destruct (last l) as [a|] eqn:El; [|done].
    intros [k Hk]%elem_of_list_lookup. apply lookup_take_Some in Hk as [Hk _].
    apply list_lookup_insert_Some in Hk as [(-> & -> & _)|[_ Hk]].
    - rewrite last_lookup in El. by eapply elem_of_list_lookup_2.
    - by eapply elem_of_list_lookup_2.
  Qed.
  Lemma swap_remove_length {A} (l : list A) i : (i < length l)%nat → length (swap_remove l i) = (length l - 1)%nat.
  Proof.
    intros Hi. unfold swap_remove. destruct (last l) as [a|] eqn:El.
    - rewrite take_length, insert_length. lia.
    - apply last_None in El. subst. cbn in Hi. lia.
  Qed.
  Lemma swap_remove_lookup {A} (l : list A) i k : (k < i < length l)%nat → swap_remove l i !! k = l !! k.
  Proof.
    intros Hi. unfold swap_remove. destruct (last l) as [a|] eqn:El; [|done].
    rewrite lookup_take by lia. by rewrite list_lookup_insert_ne by lia.
  Qed.

  Lemma drop_dangling_runs fuel i tris : (length tris < fuel + i)%nat → (i ≤ length tris)%nat →
    (∀ k q, (k < i)%nat → tris !! k = Some q → dangling q = false) →
    runs (drop_dangling fuel i tris) (λ r, (∀ q, q ∈ r → q ∈ tris ∧ dangling q = false)).
  Proof.
    revert i tris. induction fuel as [|fuel IH]; intros i tris Hf Hil' Hi; cbn [drop_dangling]; [lia|].
    destruct (tris !! i) as [q|] eqn:E.
    - pose proof (lookup_lt_Some _ _ _ E) as Hil. destruct (dangling q) eqn:Ed.
      + eapply runs_mono; [apply IH|].
        * rewrite swap_remove_length by done. lia.
        * rewrite swap_remove_length by done. lia.
        * intros k q' Hk Hq'. rewrite swap_remove_lookup in Hq' by lia. by eapply Hi.
        * cbn. intros r Hr q' Hq'. destruct (Hr q' Hq') as [Hin ?]. split; [|done]. by eapply swap_remove_elem.
      + apply IH; [lia|lia|]. intros k q' Hk Hq'. destruct (decide (k = i)) as [->|]; [congruence|]. eapply (Hi k); [lia|done].
    - cbn. intros q Hq. split; [done|]. apply elem_of_list_lookup in Hq as [k Hk]. eapply (Hi k); [|done].
      apply lookup_ge_None in E. apply lookup_lt_Some in Hk. lia.
  Qed.

  (** A triangle that some rotation of has positive area to the right. *)
  Definition oriented (t : dtri) : Prop :=
    let '(a, b, c) := t in face_ok (b, a, c) ∨ face_ok (a, c, b) ∨ face_ok (c, b, a).

  Lemma delaunay_hull_spec nhull hull : (npts ≤ 256)%nat → (2 ≤ nhull ≤ length hull)%nat →
    (∀ i h, (i < nhull)%nat → hull !! i = Some h → (h < npts)%nat) → NoDup (take nhull hull) →
    runs (delaunay_hull npts pts nhull hull) (Forall oriented).
  Proof.
    intros H256 Hn Hh Hnd. unfold delaunay_hull. destruct (nhull =? 0)%nat eqn:E0; [lia|].
    eapply (runs_bind _ _ (λ '(_, (edges, nedges)), est [] edges nedges)).
    { apply runs_ends. eapply ends_mono.
      - apply (ends_seq_inv False (λ i '(j, (edges, nedges)), (j = if i =? 0 then nhull - 1 else i - 1)%nat ∧ est [] edges nedges)).
        + split; [done|]. split; [by rewrite repeat_length|]. split; [lia|]. intros; lia.
        + intros i [j [edges nedges]] Hi [-> He].
          set (j := (if i =? 0 then nhull - 1 else i - 1)%nat).
          assert (j < nhull ∧ j ≠ i)%nat as [Hj Hji] by (unfold j; destruct (i =? 0)%nat eqn:?; lia).
          destruct (get_lt hull j) as (a & -> & Ha); [lia|]. destruct (get_lt hull i) as (b & -> & Hb); [lia|]. cbn [obind].
          eapply ends_bind; [apply runs_ends, (add_dedge_runs []); [done|]|].
          * exists a, b. cbn. split_and!; try done; [by eapply Hh|eapply (Hh i); [lia|done]|].
            intros ->. apply Hji. eapply NoDup_lookup; [exact Hnd|rewrite lookup_take by lia; exact Ha|rewrite lookup_take by lia; done].
          * intros [edges' nedges'] He'. cbn. split; [destruct (i + 1 =? 0)%nat eqn:?; lia|done].
      - intros [j [edges nedges]] [_ H]. done. }
    intros [j [edges nedges]] He.
    eapply (runs_bind _ _ fst3).
    { apply complete_loop_runs; [|lia..]. exists []. cbn. split; [done|]. split; [done|done]. }
    intros [[edges' nedges'] nfaces] (F & HlF & HF & Hest). cbn [fst snd] in *.
    eapply (runs_bind _ _ (λ tris, Forall2 part F tris)).
    { apply runs_ends, ends_keep.
      - rewrite <-HlF. clear. induction F; cbn; constructor; [by left|done].
      - intros q tris [k Hk]%elem_of_list_lookup Hp. apply lookup_take_Some in Hk as [Hk ?].
        apply runs_ends, (enter_edge_runs F); [done| |done]. destruct Hest as (_ & _ & H3). by eapply H3. }
    intros tris Hp. pose proof (Forall2_length _ _ _ Hp) as Hl.
    eapply runs_bind; [apply drop_dangling_runs; [lia|lia|intros; lia]|].
    intros r Hr. apply runs_ends. eapply ends_mono.
    - apply (ends_mapM False _ _ (λ _ t, oriented t)).
      intros i q Hq. destruct (Hr q) as [Hin Hd]; [by eapply elem_of_list_lookup_2|].
      apply elem_of_list_lookup in Hin as [k Hk].
      destruct (lookup_lt_is_Some_2 F k) as [t Ht]; [apply lookup_lt_Some in Hk; lia|].
      assert (part t q) as Hpt by (by eapply Forall2_lookup_lr). assert (face_ok t) as Hok by (by eapply Forall_lookup_1).
      unfold dangling in Hd. destruct Hpt as [(E & _)|(a & b & Ea & Eb & Hba & Hc)]; [rewrite E in Hd; done|].
      destruct Hc as [Ec|(c & Ec & Hac & Hcb)]; [rewrite Ec, Ea, Eb in Hd; done|].
      unfold face_tri. rewrite Ea, Eb, Ec. cbn [ev_unwrap obind ends].
      destruct t as [[x y] z]. pose proof Hok as [(Hx & Hy & Hz & Hn1 & Hn2 & Hn3) _].
      assert (a < 256 ∧ b < 256 ∧ c < 256)%nat as (? & ? & ?).
      { unfold dir_edge in *. lia. }
      unfold as_u8. rewrite !Nat.mod_small by done. unfold oriented, dir_edge in *.
      destruct Hba as [[-> ->]|[[-> ->]|[-> ->]]], Hac as [[? ->]|[[? ->]|[? ->]]]; try (exfalso; congruence); auto.
    - intros ts [_ Hts]. apply Forall_forall. intros t [i Hi]%elem_of_list_lookup. by eapply Hts.
  Qed.
End delaunay.
