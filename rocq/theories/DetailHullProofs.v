(** Triangulating the outline of a polygon, and the edge flags. *)
From Verif Require Import Base FlowProofs ModelMath ModelHeightfield ModelCompact ModelContours ModelPoly ModelTriMesh ModelMarkArea ModelDetail SpecDetail.
Local Open Scope Z_scope.

(** ** Areas *)
Lemma chain_split l1 a l2 : chain_area (l1 ++ a :: l2) = chain_area (l1 ++ [a]) + chain_area (a :: l2).
Proof.
  induction l1 as [|x l1 IH]; [by cbn; destruct l2|].
  destruct l1 as [|y l1]; [cbn; destruct l2; lia|].
  change (cross x y + chain_area ((y :: l1) ++ a :: l2) = cross x y + chain_area ((y :: l1) ++ [a]) + chain_area (a :: l2)).
  rewrite IH. lia.
Qed.

Lemma cross_self p : cross p p = 0.
Proof. unfold cross. lia. Qed.

Lemma cross_anti p q : cross p q = - cross q p.
Proof. unfold cross. lia. Qed.

Lemma polygon_rot1 a l : polygon_area (a :: l) = polygon_area (l ++ [a]).
Proof.
  destruct l as [|b l]; [done|].
  change (chain_area (a :: b :: (l ++ [a])) = chain_area (((b :: l) ++ [a]) ++ [b])).
  rewrite <-app_assoc. change ([a] ++ [b]) with (a :: [b]). rewrite chain_split.
  change (chain_area [a; b]) with (cross a b + 0).
  change (cross a b + chain_area (b :: l ++ [a]) = chain_area ((b :: l) ++ [a]) + (cross a b + 0)).
  cbn [app]. lia.
Qed.

Lemma polygon_rot l1 l2 : polygon_area (l1 ++ l2) = polygon_area (l2 ++ l1).
Proof.
  revert l2. induction l1 as [|a l1 IH]; intros l2; [by rewrite app_nil_r|].
  cbn [app]. rewrite polygon_rot1, <-app_assoc, IH, <-app_assoc. done.
Qed.

(** Cutting off the first or the last vertex of the list. *)
Lemma polygon_cut_first a b l r :
  polygon_area (a :: b :: l ++ [r]) = polygon_area [a; b; r] + polygon_area (b :: l ++ [r]).
Proof.
  unfold polygon_area. cbn [app].
  rewrite <-!app_assoc. change ([r] ++ [a]) with (r :: [a]). change ([r] ++ [b]) with (r :: [b]).
  change (a :: b :: l ++ [r; a]) with ((a :: b :: l) ++ r :: [a]).
  change (b :: l ++ [r; b]) with ((b :: l) ++ r :: [b]).
  rewrite (chain_split (a :: b :: l) r [a]), (chain_split (b :: l) r [b]).
  change (chain_area ((a :: b :: l) ++ [r])) with (cross a b + chain_area ((b :: l) ++ [r])).
  generalize (chain_area ((b :: l) ++ [r])). intros A. cbn [chain_area]. rewrite (cross_anti r b). lia.
Qed.

Lemma polygon_cut_last a l q r :
  polygon_area (a :: l ++ [q; r]) = polygon_area [a; q; r] + polygon_area (a :: l ++ [q]).
Proof.
  unfold polygon_area. cbn [app]. rewrite <-!app_assoc. cbn [app].
  change (a :: l ++ [q; r; a]) with ((a :: l) ++ q :: [r; a]).
  change (a :: l ++ [q; a]) with ((a :: l) ++ q :: [a]).
  rewrite (chain_split (a :: l) q [r; a]), (chain_split (a :: l) q [a]).
  generalize (chain_area ((a :: l) ++ [q])). intros A. cbn [chain_area]. rewrite (cross_anti q a). lia.
Qed.

(** ** The strip between [left] and [right] *)
Section hull.
  Context (verts : list vec3) (hull : list nat) (n : nat).
  Context (Hn : (3 ≤ n)%nat) (Hlen : (n ≤ length hull)%nat).
  Context (Hval : ∀ i h, hull !! i = Some h → (i < n)%nat → (h < length verts)%nat ∧ (h < 256)%nat).

  Definition hat (k : nat) : nat := default 0%nat (hull !! (k mod n)%nat).

  Lemma hat_lookup k : hull !! (k mod n)%nat = Some (hat k).
  Proof.
    unfold hat. assert (k mod n < n)%nat by (apply Nat.mod_upper_bound; lia).
    destruct (lookup_lt_is_Some_2 hull (k mod n)) as [h ->]; [lia|done].
  Qed.

  Lemma hat_lt k : (hat k < length verts)%nat ∧ (hat k < 256)%nat.
  Proof.
    eapply Hval; [apply hat_lookup|]. apply Nat.mod_upper_bound. lia.
  Qed.

  Lemma hat_in k : hat k ∈ take n hull.
  Proof.
    apply elem_of_list_lookup. exists (k mod n)%nat. rewrite lookup_take; [apply hat_lookup|].
    apply Nat.mod_upper_bound. lia.
  Qed.

  Lemma hat_wrap k : hat (k + n) = hat k.
  Proof. unfold hat. by rewrite <-(Nat.mul_1_l n) at 1; rewrite Nat.mod_add by lia. Qed.

  Lemma hull_xz_done k : (k < n)%nat → ∃ p, hull_xz verts hull k = Done p.
  Proof.
    intros Hk. unfold hull_xz.
    destruct (lookup_lt_is_Some_2 hull k) as [h Hh]; [lia|]. unfold get at 1. rewrite Hh. cbn [obind].
    destruct (Hval k h Hh Hk) as [Hv _].
    destruct (get_lt verts h Hv) as (v & -> & _). cbn. eauto.
  Qed.

  Lemma mk_dtri_hat a b c :
    mk_dtri hull (a mod n) (b mod n) (c mod n) = Done (hat a, hat b, hat c).
  Proof.
    unfold mk_dtri, get. rewrite !hat_lookup. cbn [obind]. unfold as_u8.
    rewrite !Nat.mod_small by apply hat_lt. done.
  Qed.

  Lemma next_hat k : next_idx (k mod n) n = Done ((k + 1) mod n)%nat.
  Proof. unfold next_idx. destruct n; [lia|]. by rewrite Nat.add_mod_idemp_l. Qed.

  Lemma prev_hat k : prev_idx ((k + 1) mod n) n = Done (k mod n)%nat.
  Proof.
    unfold prev_idx. destruct n as [|n'] eqn:En; [lia|]. f_equal.
    replace ((k + 1) mod S n' + S n' - 1)%nat with ((k + 1) mod S n' + n')%nat by lia.
    rewrite Nat.add_mod_idemp_l by done. replace (k + 1 + n')%nat with (k + 1 * S n')%nat by lia.
    by rewrite Nat.mod_add.
  Qed.

  (** The vertices from [l] to [l + g], in outline order. *)
  Definition path (l g : nat) : list nat := hat <$> seq l (S g).

  Lemma path_cons l g : path l (S g) = hat l :: path (S l) g.
  Proof. done. Qed.

  Lemma path_snoc l g : path l (S g) = path l g ++ [hat (l + S g)%nat].
  Proof. unfold path. by rewrite (seq_S (S g)), fmap_app. Qed.

  Lemma strip_spec fuel l g tris :
    (g < n)%nat → (1 ≤ g)%nat → (g ≤ fuel)%nat →
    ∃ ts, strip_loop fuel verts n hull (l mod n) ((l + g) mod n) tris = Done (tris ++ ts)
      ∧ length ts = (g - 1)%nat
      ∧ (∀ t, t ∈ ts → ∀ x, x ∈ corners t → x ∈ path l g)
      ∧ covers (path l g) ts.
  Proof.
    revert l g tris. induction fuel as [|fuel IH]; intros l g tris Hg H1 Hf; [lia|].
    cbn [strip_loop]. rewrite next_hat. cbn [obind].
    destruct (decide (g = 1%nat)) as [->|Hg1].
    { rewrite Nat.eqb_refl. exists []. rewrite app_nil_r. split; [done|]. split; [done|]. split; [set_solver|].
      intros place. cbn. unfold cross. lia. }
    assert (((l + 1) mod n =? (l + g) mod n)%nat = false) as ->.
    { apply Nat.eqb_neq. intros E.
      assert (l + 1 = n * ((l + 1) / n) + (l + 1) mod n)%nat as E1 by (apply Nat.div_mod; lia).
      assert (l + g = n * ((l + g) / n) + (l + g) mod n)%nat as E2 by (apply Nat.div_mod; lia).
      set (a := ((l + 1) / n)%nat) in *. set (b := ((l + g) / n)%nat) in *.
      assert (n * b = n * a + (g - 1))%nat by lia.
      destruct (decide (b ≤ a)%nat); [assert (n * b ≤ n * a)%nat by nia; lia|].
      assert (n * (a + 1) ≤ n * b)%nat by nia. lia. }
    destruct g as [|g]; [lia|]. destruct g as [|g]; [lia|].
    replace (l + S (S g))%nat with (l + S g + 1)%nat by lia. rewrite prev_hat. cbn [obind].
    assert (∀ k, (k mod n < n)%nat) as Hm by (intros; apply Nat.mod_upper_bound; lia).
    destruct (hull_xz_done (l mod n)) as [p1 ->]; [done|]. cbn [obind].
    destruct (hull_xz_done ((l + 1) mod n)) as [p2 ->]; [done|]. cbn [obind].
    destruct (hull_xz_done ((l + S g + 1) mod n)) as [p3 ->]; [done|]. cbn [obind].
    destruct (hull_xz_done ((l + S g) mod n)) as [p4 ->]; [done|]. cbn [obind].
    destruct (f_lt _ _).
    - rewrite mk_dtri_hat. cbn [obind]. replace (l + S g + 1)%nat with (l + 1 + S g)%nat by lia.
      destruct (IH (l + 1)%nat (S g) (tris ++ [(hat l, hat (l + 1), hat (l + 1 + S g))])) as (ts & E & L & M & C); [lia..|].
      rewrite E. rewrite <-app_assoc.
      eexists. split; [done|]. split; [cbn; lia|]. split.
      + intros t. cbn [app]. rewrite elem_of_cons. intros [->|Ht] x Hx.
        * cbn [corners] in Hx. unfold path. apply elem_of_list_fmap.
          apply elem_of_cons in Hx as [->|Hx]; [exists l; split; [done|]; apply elem_of_seq; lia|].
          apply elem_of_cons in Hx as [->|Hx]; [exists (l + 1)%nat; split; [done|]; apply elem_of_seq; lia|].
          apply elem_of_list_singleton in Hx as ->. exists (l + 1 + S g)%nat. split; [done|]. apply elem_of_seq. lia.
        * rewrite path_cons. apply elem_of_cons. right. replace (S l) with (l + 1)%nat by lia. eauto.
      + intros place. cbn [fmap list_fmap zsum foldr app]. fold (zsum ((λ t, polygon_area (place <$> corners t)) <$> ts)).
        rewrite (C place). rewrite path_cons, path_cons, !path_cons. replace (l + 1)%nat with (S l) by lia.
        cbn [fmap list_fmap corners]. destruct g as [|g].
        * unfold path. cbn [seq fmap list_fmap]. replace (S l + 1)%nat with (S (S l)) by lia.
          symmetry. apply (polygon_cut_first _ _ []).
        * rewrite path_snoc. replace (S (S l) + S g)%nat with (S l + S (S g))%nat by lia.
          rewrite fmap_app. symmetry. apply polygon_cut_first.
    - rewrite mk_dtri_hat. cbn [obind].
      destruct (IH l (S g) (tris ++ [(hat l, hat (l + S g), hat (l + S g + 1))])) as (ts & E & L & M & C); [lia..|].
      rewrite E. rewrite <-app_assoc. eexists. split; [done|]. split; [cbn; lia|]. split.
      + intros t. cbn [app]. rewrite elem_of_cons. intros [->|Ht] x Hx.
        * cbn [corners] in Hx. unfold path. apply elem_of_list_fmap.
          apply elem_of_cons in Hx as [->|Hx]; [exists l; split; [done|]; apply elem_of_seq; lia|].
          apply elem_of_cons in Hx as [->|Hx]; [exists (l + S g)%nat; split; [done|]; apply elem_of_seq; lia|].
          apply elem_of_list_singleton in Hx as ->. exists (l + S g + 1)%nat. split; [done|]. apply elem_of_seq. lia.
        * rewrite path_snoc. apply elem_of_app. left. eauto.
      + intros place. cbn [fmap list_fmap zsum foldr app]. fold (zsum ((λ t, polygon_area (place <$> corners t)) <$> ts)).
        rewrite (C place). rewrite (path_snoc l (S g)), (path_snoc l g), <-app_assoc.
        replace (l + S (S g))%nat with (l + S g + 1)%nat by lia.
        rewrite !fmap_app. cbn [fmap list_fmap corners app].
        unfold path. cbn [seq fmap list_fmap app]. symmetry. apply polygon_cut_last.
  Qed.

  Lemma first_ear_spec nin :
    ∃ s d, first_ear verts n hull nin = Done (s mod n, (s + 1) mod n, (s + n - 1) mod n, d)%nat ∧ (s < n)%nat.
  Proof.
    unfold first_ear. assert ((n =? 0)%nat = false) as -> by (apply Nat.eqb_neq; lia).
    match goal with |- ∃ _ _, foldM ?f _ _ = _ ∧ _ => set (F := f) end.
    assert (runs (foldM F (seq 0 n) (0, 1, n - 1, F32_MAX)%nat)
      (λ r, ∃ s d, r = (s mod n, (s + 1) mod n, (s + n - 1) mod n, d)%nat ∧ (s < n)%nat)) as H.
    { change n with (0 + n)%nat at 2. apply (foldM_seq_inv (λ _ r, ∃ s d, r = (s mod n, (s + 1) mod n, (s + n - 1) mod n, d)%nat ∧ (s < n)%nat)).
      - exists 0%nat, F32_MAX. rewrite !Nat.mod_small by lia. split; [done|lia].
      - intros i r Hi (s & d & -> & Hs). unfold F.
        destruct (lookup_lt_is_Some_2 hull i) as [h Hh]; [lia|]. unfold get at 1. rewrite Hh. cbn [obind].
        destruct (nin <=? h)%nat; [cbn; eauto|].
        unfold prev_idx, next_idx. destruct n as [|n'] eqn:En; [lia|]. rewrite <-En in *. cbn [obind].
        assert (∀ k, (k mod n < n)%nat) as Hm by (intros; apply Nat.mod_upper_bound; lia).
        destruct (hull_xz_done ((i + n - 1) mod n)) as [p1 ->]; [done|]. cbn [obind].
        destruct (hull_xz_done i) as [p2 ->]; [lia|]. cbn [obind].
        destruct (hull_xz_done ((i + 1) mod n)) as [p3 ->]; [done|]. cbn [obind].
        cbn [runs]. destruct (f_lt _ d); [|eauto].
        exists i. eexists. split; [|lia]. rewrite (Nat.mod_small i) by lia. done. }
    destruct (foldM F _ _) as [r| |]; [|done..]. destruct H as (s & d & -> & Hs). eauto.
  Qed.

  Lemma path_all : path 0 (n - 1) = take n hull.
  Proof.
    unfold path. replace (S (n - 1)) with n by lia. apply list_eq. intros i.
    rewrite list_lookup_fmap. destruct (decide (i < n)%nat) as [Hi|Hi].
    - rewrite lookup_seq_lt by done. cbn [fmap option_fmap option_map]. rewrite lookup_take by done.
      rewrite <-(Nat.mod_small i n) at 2 by done. by rewrite hat_lookup.
    - rewrite lookup_seq_ge by lia. rewrite lookup_take_ge by lia. done.
  Qed.

  Lemma triangulate_hull_spec nin :
    ∃ ts, triangulate_hull verts n hull nin = Done ts
      ∧ length ts = (n - 2)%nat
      ∧ (∀ t, t ∈ ts → ∀ x, x ∈ corners t → x ∈ take n hull)
      ∧ covers (take n hull) ts.
  Proof.
    unfold triangulate_hull. destruct (first_ear_spec nin) as (s & d & -> & Hs). cbn [obind].
    rewrite mk_dtri_hat. cbn [obind].
    set (l := (s + 1)%nat). replace (s + n - 1)%nat with (l + (n - 2))%nat by (unfold l; lia).
    destruct (strip_spec (S n) l (n - 2) [(hat s, hat l, hat (l + (n - 2)))]) as (ts & -> & L & M & C); [lia..|].
    eexists. split; [done|]. split; [cbn; lia|].
    assert (∀ k, hat k ∈ take n hull) as Hin by apply hat_in.
    split.
    - intros t. cbn [app]. rewrite elem_of_cons. intros [->|Ht] x Hx.
      + cbn [corners] in Hx. rewrite !elem_of_cons in Hx. destruct Hx as [->|[->|[->|Hx]]]; [apply Hin..|].
        by apply elem_of_nil in Hx.
      + specialize (M t Ht x Hx). unfold path in M. apply elem_of_list_fmap in M as (k & -> & _). apply Hin.
    - intros place. cbn [fmap list_fmap zsum foldr app]. fold (zsum ((λ t, polygon_area (place <$> corners t)) <$> ts)).
      rewrite (C place). rewrite <-path_all.
      (* the outline, from [l] on *)
      assert (polygon_area (place <$> path 0 (n - 1)) = polygon_area (place <$> path l (n - 1))) as ->.
      { unfold path. replace (S (n - 1)) with ((n - l) + l)%nat at 2 by (unfold l; lia).
        replace (S (n - 1)) with (l + (n - l))%nat by (unfold l; lia).
        rewrite !seq_app, !fmap_app. rewrite polygon_rot. cbn [plus]. f_equal. f_equal. f_equal.
        apply list_eq. intros i. rewrite !list_lookup_fmap.
        destruct (decide (i < l)%nat) as [Hi|Hi].
        - rewrite !lookup_seq_lt by done. cbn [fmap option_fmap option_map].
          replace (l + (n - l) + i)%nat with (0 + i + n)%nat by (unfold l; lia). by rewrite hat_wrap.
        - rewrite !lookup_seq_ge by lia. done. }
      replace (n - 1)%nat with (S (S (n - 3))) by lia. replace (n - 2)%nat with (S (n - 3)) by lia.
      rewrite (path_snoc l (S (n - 3))), (path_snoc l (n - 3)), <-app_assoc, !fmap_app.
      assert (hat (l + S (S (n - 3))) = hat s) as -> by (rewrite <-(hat_wrap s); f_equal; unfold l; lia).
      unfold path. cbn [seq fmap list_fmap corners app].
      rewrite polygon_cut_last, polygon_rot1. done.
  Qed.
End hull.

(** Fewer than one hull vertex. *)
Lemma triangulate_hull_empty verts hull nin : triangulate_hull verts 0 hull nin = Panicked.
Proof. done. Qed.

(** ** Edge flags *)
Section flags.
  Context (hull : list nat) (n : nat).
  Context (Hn : (0 < n)%nat) (Hlen : (n ≤ length hull)%nat).
  Context (Hval : ∀ i h, hull !! i = Some h → (i < n)%nat → (h < n)%nat).

  Lemma on_hull_loop_spec a b k m j :
    (k + m = n)%nat → j = ((k + n - 1) mod n)%nat →
    ∃ r, on_hull_loop a b hull (seq k m) j = Done r ∧
      (r = true ↔ ∃ i, (k ≤ i < n)%nat ∧ hull !! ((i + n - 1) mod n)%nat = Some a ∧ hull !! i = Some b).
  Proof.
    revert k j. induction m as [|m IH]; intros k j Hk ->.
    { cbn. exists false. split; [done|]. split; [done|]. intros (i & Hi & _). lia. }
    cbn [seq on_hull_loop].
    assert ((k + n - 1) mod n < n)%nat as Hm by (apply Nat.mod_upper_bound; lia).
    destruct (lookup_lt_is_Some_2 hull ((k + n - 1) mod n)) as [hj Hj]; [lia|].
    destruct (lookup_lt_is_Some_2 hull k) as [hi Hi]; [lia|].
    unfold get. rewrite Hj, Hi. cbn [obind].
    destruct (IH (S k) k) as (r & E & Hr); [lia|rewrite <-(Nat.mod_small k n) at 1 by lia;
      replace (S k + n - 1)%nat with (k + 1 * n)%nat by lia; by rewrite Nat.mod_add by lia|].
    destruct (a =? hj)%nat eqn:Ea; [destruct (b =? hi)%nat eqn:Eb|].
    - exists true. split; [done|]. split; [|done]. intros _. exists k. split; [lia|]. split; [rewrite Hj|rewrite Hi]; f_equal; lia.
    - exists r. split; [done|]. rewrite Hr. split; intros (i & Hik & H1 & H2); exists i; [split; [lia|done]|].
      split; [|done]. destruct (decide (i = k)) as [->|]; [|lia]. exfalso. rewrite Hi in H2. injection H2. lia.
    - exists r. split; [done|]. rewrite Hr. split; intros (i & Hik & H1 & H2); exists i; [split; [lia|done]|].
      split; [|done]. destruct (decide (i = k)) as [->|]; [|lia]. exfalso. rewrite Hj in H1. injection H1. lia.
  Qed.

  Lemma on_hull_spec a b :
    ∃ r, on_hull a b n hull = Done r ∧ (r = true ↔ follows (take n hull) a b).
  Proof.
    assert (length (take n hull) = n) as Ht by (rewrite take_length; lia).
    assert (follows (take n hull) a b → (a < n)%nat ∧ (b < n)%nat) as Hf.
    { intros (i & H1 & H2). rewrite Ht in H2. split.
      - pose proof H1 as Hl%lookup_lt_Some. rewrite lookup_take in H1 by lia. eapply Hval; [done|lia].
      - assert (S i mod n < n)%nat by (apply Nat.mod_upper_bound; lia).
        rewrite lookup_take in H2 by done. by eapply Hval. }
    unfold on_hull. destruct ((n <=? a) || (n <=? b))%nat eqn:E.
    { exists false. split; [done|]. split; [done|]. intros H%Hf. lia. }
    destruct (on_hull_loop_spec a b 0 n (n - 1)) as (r & -> & Hr); [lia|by rewrite Nat.mod_small by lia|].
    exists r. split; [done|]. rewrite Hr. unfold follows. rewrite Ht. split.
    - intros (i & Hi & H1 & H2). assert ((i + n - 1) mod n < n)%nat as Hm by (apply Nat.mod_upper_bound; lia).
      exists ((i + n - 1) mod n)%nat. rewrite lookup_take by done. split; [done|].
      assert (S ((i + n - 1) mod n) mod n = i)%nat as ->.
      { replace (S ((i + n - 1) mod n)) with ((i + n - 1) mod n + 1)%nat by lia.
        rewrite Nat.add_mod_idemp_l by lia. replace (i + n - 1 + 1)%nat with (i + 1 * n)%nat by lia.
        rewrite Nat.mod_add by lia. apply Nat.mod_small. lia. }
      by rewrite lookup_take by lia.
    - intros (i & H1 & H2). pose proof H1 as Hl%lookup_lt_Some. rewrite Ht in Hl.
      assert (S i mod n < n)%nat as Hm by (apply Nat.mod_upper_bound; lia).
      rewrite lookup_take in H1, H2 by lia. exists (S i mod n)%nat. split; [lia|].
      assert ((S i mod n + n - 1) mod n = i)%nat as ->.
      { destruct (decide (S i = n)) as [E2|].
        - rewrite E2, Nat.mod_same by lia. rewrite Nat.mod_small by lia. lia.
        - rewrite (Nat.mod_small (S i)) by lia. replace (S i + n - 1)%nat with (i + 1 * n)%nat by lia.
          rewrite Nat.mod_add by lia. apply Nat.mod_small. lia. }
      done.
  Qed.

  Lemma tri_flags_spec t : ∃ f, tri_flags n hull t = Done f ∧ flags_exact (take n hull) t f.
  Proof.
    destruct t as [[a b] c]. unfold tri_flags.
    destruct (on_hull_spec a b) as (r1 & -> & H1). cbn [obind].
    destruct (on_hull_spec b c) as (r2 & -> & H2). cbn [obind].
    destruct (on_hull_spec c a) as (r3 & -> & H3). cbn [obind].
    eexists. split; [done|]. unfold flags_exact. rewrite <-H1, <-H2, <-H3.
    destruct r1, r2, r3; vm_compute; repeat split; try done; discriminate.
  Qed.

  Lemma set_tri_flags_spec tris :
    ∃ fs, set_tri_flags n hull tris = Done fs ∧ Forall2 (flags_exact (take n hull)) tris fs.
  Proof.
    unfold set_tri_flags. induction tris as [|t tris (fs & IH & HF)]; [exists []; done|].
    cbn [mapM_o]. destruct (tri_flags_spec t) as (f & -> & Hf). cbn [obind]. rewrite IH. cbn [obind].
    eexists. split; [done|]. by constructor.
  Qed.
End flags.
