(** The shape of every returned polygon mesh, whatever the contours were. *)
From Verif Require Import Base ModelMath ModelContours ModelPoly SpecPoly FlowProofs TriangulateProofs MergeProofs MergeLoopProofs
  WeldProofs AdjacencyProofs MeshProofs.
From Verif Require Export GivesProofs.
Local Open Scope Z_scope.

Lemma count_whole nvp vs row rest : padded nvp vs row → count_verts (row ++ rest) nvp = length vs.
Proof.
  intros P. rewrite <- (count_padded _ _ _ P). assert (length row = nvp) as Hl.
  { destruct P as (-> & ? & _). rewrite app_length, repeat_length. lia. }
  clear P. revert row Hl. induction nvp as [|n IH]; intros [|v row] Hl; try done; cbn in *.
  - by destruct rest.
  - destruct (v =? NO_INDEX); [done|]. by rewrite IH by lia.
Qed.

Section shape.
Context (nvp : nat) (Hnvp : (3 <= nvp)%nat) (W : Prop) (V : vtx → Prop) (RR RA : Z → Prop) (RR0 : RR 0).

(** A row: three or more vertices below [nv] and padding; no neighbours yet. *)
Definition inr (nv : nat) (v : Z) : Prop := v < Z.of_nat nv ∨ W.
Definition prow (nv : nat) (row : list Z) : Prop := ∃ vs, padded nvp vs row ∧ Forall (inr nv) vs.
Definition shape (nv : nat) (r : list Z * list Z) : Prop := prow nv r.1 ∧ r.2 = repeat NO_INDEX nvp.

Lemma inr_mono nv nv' v : (nv <= nv')%nat → inr nv v → inr nv' v.
Proof. intros H [?|?]; [left; lia|by right]. Qed.
Lemma prow_mono nv nv' row : (nv <= nv')%nat → prow nv row → prow nv' row.
Proof. intros H (vs & P & F). exists vs. split; [done|]. eapply Forall_impl; [exact F|]. intros v. by apply inr_mono. Qed.
Lemma shape_mono nv nv' r : (nv <= nv')%nat → shape nv r → shape nv' r.
Proof. intros H [P E]. split; [by eapply prow_mono|done]. Qed.
Lemma tri_prow nv a b c : 0 <= a < 65535 → 0 <= b < 65535 → 0 <= c < 65535 → inr nv a → inr nv b → inr nv c → prow nv (tri_row nvp a b c).
Proof.
  intros Ha Hb Hc Ia Ib Ic. exists [a; b; c]. split; [|by do 3 (constructor; [done|])].
  split; [done|]. split; [cbn; lia|]. by do 3 (constructor; [done|]).
Qed.

(** ** Merging *)

Lemma best_merge_gives {T} (polys : list (trow T)) vss verts : Forall2 (λ r vs, padded nvp vs r.1) polys vss →
  gives (best_merge polys verts nvp) (λ '(v, pa, pb, ea, eb), 0 < v →
    (pa < pb)%nat ∧ ∃ a b, vss !! pa = Some a ∧ vss !! pb = Some b ∧ merge_ok verts nvp a b ea eb).
Proof.
  intros HF. apply (gives_ends True). apply best_merge_ends.
  eapply Forall2_impl; [exact HF|]. intros r vs P. split; [done|]. apply Forall_true. intros. by right.
Qed.
Lemma merge_rows_gives nv verts ra rb a b ea eb : padded nvp a ra → padded nvp b rb → Forall (inr nv) a → Forall (inr nv) b →
  merge_ok verts nvp a b ea eb → gives (merge_rows ra rb ea eb nvp) (prow nv).
Proof.
  intros Pa Pb Fa Fb (Ha & Hb & Hn & _) row E.
  assert (3 <= length a)%nat as La by apply Pa. assert (3 <= length b)%nat as Lb by apply Pb.
  destruct (rot ea a) as [|xa la] eqn:Ea; [pose proof (rot_length ea a) as H; rewrite Ea in H; cbn in H; lia|].
  destruct (rot eb b) as [|xb lb] eqn:Eb; [pose proof (rot_length eb b) as H; rewrite Eb in H; cbn in H; lia|].
  destruct (merge_rows_done nvp a ra b rb ea eb xa la xb lb) as (row' & E' & P); [done..|].
  rewrite E' in E. injection E as <-. exists (la ++ lb). split; [done|].
  rewrite (rotation_perm _ _ (rot_rotation ea a)), Ea in Fa. rewrite (rotation_perm _ _ (rot_rotation eb b)), Eb in Fb.
  apply Forall_cons_1 in Fa as [_ Fa], Fb as [_ Fb]. by apply Forall_app.
Qed.

Definition tagged {T} (nv : nat) (TP : T → Prop) (r : trow T) : Prop := prow nv r.1 ∧ TP r.2.

Lemma apply_merge_gives {T} nv (TP : T → Prop) (join : T → T → T) (polys : list (trow T)) vss verts pa pb ea eb a b :
  (∀ s t, TP s → TP t → TP (join s t)) → Forall (tagged nv TP) polys → Forall2 (λ r vs, padded nvp vs r.1) polys vss →
  vss !! pa = Some a → vss !! pb = Some b → merge_ok verts nvp a b ea eb →
  gives (apply_merge join polys nvp pa pb ea eb) (λ polys', Forall (tagged nv TP) polys' ∧ (length polys' <= length polys)%nat).
Proof.
  intros Hj HT HF Ha Hb Hok. unfold apply_merge.
  apply gives_get. intros ra Hra. apply gives_get. intros rb Hrb.
  destruct (Forall2_lookup_l _ _ _ _ _ HF Hra) as (a' & Ha' & Pa). assert (a' = a) as -> by congruence.
  destruct (Forall2_lookup_l _ _ _ _ _ HF Hrb) as (b' & Hb' & Pb). assert (b' = b) as -> by congruence.
  destruct (Forall_lookup_1 _ _ _ _ HT Hra) as [(a1 & Pa1 & Fa) Ta]. destruct (Forall_lookup_1 _ _ _ _ HT Hrb) as [(b1 & Pb1 & Fb) Tb].
  assert (∀ l l' row, padded nvp l row → padded nvp l' row → l = l') as Hu.
  { intros l l' row P P'. pose proof (count_padded _ _ _ P) as C. rewrite (count_padded _ _ _ P') in C.
    destruct P as (-> & _), P' as (E & _). apply app_inj_1 in E as [E _]; [done|lia]. }
  rewrite (Hu _ _ _ Pa1 Pa) in Fa. rewrite (Hu _ _ _ Pb1 Pb) in Fb.
  eapply gives_bind; [by apply (merge_rows_gives nv verts ra.1 rb.1 a b)|]. intros row Prow.
  apply gives_put. intros _. apply gives_get. intros l Hl. apply gives_put. intros _. apply gives_done.
  assert (Forall (tagged nv TP) (<[pa:=(row, join ra.2 rb.2)]> polys)) as H1.
  { apply Forall_insert; [done|]. split; [done|]. by apply Hj. }
  split; [apply Forall_take, Forall_insert; [done|by eapply Forall_lookup_1]|]. rewrite take_length, !insert_length. lia.
Qed.

Lemma merge_all_gives {T} nv (TP : T → Prop) (join : T → T → T) (polys : list (trow T)) verts :
  (∀ s t, TP s → TP t → TP (join s t)) → Forall (tagged nv TP) polys →
  gives (merge_all join verts nvp polys) (λ polys', Forall (tagged nv TP) polys' ∧ (length polys' <= length polys)%nat).
Proof.
  intros Hj HT. unfold merge_all. destruct (3 <? nvp)%nat; [|by apply gives_done].
  generalize (S (length polys)). intros fuel. revert polys HT. induction fuel as [|fuel IH]; intros polys HT; [apply gives_fuel|].
  cbn [merge_loop].
  assert (∃ vss, Forall2 (λ (r : trow T) vs, padded nvp vs r.1) polys vss) as [vss HF].
  { clear -HT. induction HT as [|r polys [(vs & P & _) _] _ [vss IH]]; [by exists []|]. exists (vs :: vss). by constructor. }
  eapply gives_bind; [by eapply best_merge_gives|]. intros [[[[v pa] pb] ea] eb] Hb.
  destruct (0 <? v) eqn:Ev; [|by apply gives_done].
  destruct Hb as (Hlt & a & b & Ha & Hb & Hok); [lia|].
  eapply gives_bind; [by eapply apply_merge_gives|]. intros polys' [HT' Hl].
  eapply gives_mono; [by apply IH|]. cbn. intros polys'' [? ?]. split; [done|lia].
Qed.

(** ** The mesh under construction *)

Record shaped (nv : nat) (m : imesh) : Prop := {
  sh_np : (im_np m <= length (im_polys m))%nat;
  sh_rows : ∀ i r, (i < im_np m)%nat → im_polys m !! i = Some r → shape nv r;
  sh_nregs : (im_np m <= length (im_regs m))%nat;
  sh_regs : ∀ i g, (i < im_np m)%nat → im_regs m !! i = Some g → RR g;
  sh_nareas : (im_np m <= length (im_areas m))%nat;
  sh_areas : ∀ i a, (i < im_np m)%nat → im_areas m !! i = Some a → RA a
}.

Lemma shaped_mono nv nv' m : (nv <= nv')%nat → shaped nv m → shaped nv' m.
Proof. intros H [A B C D E F]. split; [done| |done..]. intros i r Hi Hr. eapply shape_mono; [done|by eapply B]. Qed.
Lemma shaped_verts nv m vs n : shaped nv m → shaped nv (IM vs n (im_polys m) (im_np m) (im_regs m) (im_areas m)).
Proof. intros [A B C D E F]. by split. Qed.

Lemma put_below {A} (P : A → Prop) (l : list A) n x : (∀ i y, (i < n)%nat → l !! i = Some y → P y) → P x →
  ∀ i y, (i < S n)%nat → <[n := x]> l !! i = Some y → P y.
Proof.
  intros H Hx i y Hi Hy. destruct (decide (i = n)) as [->|Hne].
  - apply list_lookup_insert_Some in Hy as [(_ & <- & _)|[? _]]; done.
  - rewrite list_lookup_insert_ne in Hy by done. eapply H; [|done]. lia.
Qed.
Lemma put_within {A} (P : A → Prop) (l : list A) n j x : (∀ i y, (i < n)%nat → l !! i = Some y → P y) → P x →
  ∀ i y, (i < n)%nat → <[j := x]> l !! i = Some y → P y.
Proof. intros H Hx i y Hi Hy. apply list_lookup_insert_Some in Hy as [(_ & <- & _)|[_ ?]]; [done|by eapply H]. Qed.

(** Adding a row at the end. *)
Lemma shaped_push nv m row reg area : shaped nv m → shape nv row → RR reg → RA area →
  (im_np m < length (im_polys m))%nat → (im_np m < length (im_regs m))%nat → (im_np m < length (im_areas m))%nat →
  shaped nv (IM (im_verts m) (im_nv m) (<[im_np m := row]> (im_polys m)) (S (im_np m)) (<[im_np m := reg]> (im_regs m)) (<[im_np m := area]> (im_areas m))).
Proof.
  intros [A B C D E F] Hr Hg Ha L1 L2 L3. split; cbn; rewrite ?insert_length; [lia| |lia| |lia|].
  - by apply put_below.
  - by apply put_below.
  - by apply put_below.
Qed.

Definition same_tables (m m' : imesh) : Prop :=
  length (im_polys m') = length (im_polys m) ∧ length (im_regs m') = length (im_regs m) ∧ length (im_areas m') = length (im_areas m).

(** ** Contours *)

Lemma store_polys_gives nv reg area (ps : list (trow unit)) m :
  shaped nv m → (∀ r, r ∈ im_polys m → r.2 = repeat NO_INDEX nvp) → Forall (λ p, prow nv p.1) ps → RR reg → RA area →
  gives (store_polys nvp reg area ps m) (λ m', shaped nv m' ∧ (∀ r, r ∈ im_polys m' → r.2 = repeat NO_INDEX nvp) ∧
    same_tables m m' ∧ im_verts m' = im_verts m ∧ im_nv m' = im_nv m).
Proof.
  intros Hm Hn Hps Hreg Harea. unfold store_polys.
  apply (gives_keep (λ m', shaped nv m' ∧ (∀ r, r ∈ im_polys m' → r.2 = repeat NO_INDEX nvp) ∧
    same_tables m m' ∧ im_verts m' = im_verts m ∧ im_nv m' = im_nv m)); [done|].
  intros p m' Hp (S' & N' & (T1 & T2 & T3) & E1 & E2). rewrite Forall_forall in Hps. specialize (Hps p Hp).
  apply gives_get. intros r Hr. apply gives_put. intros L1. apply gives_put. intros L2. apply gives_put. intros L3. apply gives_done.
  assert (r.2 = repeat NO_INDEX nvp) as Er by (eapply N', elem_of_list_lookup_2; exact Hr).
  split; [apply shaped_push; try done|]. split; [|split; [|done]].
  - cbn. intros r' Hr'. apply elem_of_list_lookup in Hr' as [i Hi]. apply list_lookup_insert_Some in Hi as [(_ & <- & _)|[_ Hi]]; [done|].
    by eapply N', elem_of_list_lookup_2.
  - split; cbn; rewrite ?insert_length; done.
Qed.

(** Welding the vertices of a contour; some may be flagged. *)
Lemma add_contour_flagged cap (vs : list rawv) t tab flags : vtab_rep cap t tab →
  (length tab + length vs <= cap)%nat → Z.of_nat cap <= 65535 →
  gives (add_contour vs t flags) (λ '(is, t', flags'), ∃ tab', vtab_rep cap t' tab' ∧ welds tab (fst <$> vs) is tab').
Proof.
  unfold add_contour.
  enough (∀ t tab is0 flags, vtab_rep cap t tab → (length tab + length vs <= cap)%nat → Z.of_nat cap <= 65535 →
    gives (foldM (λ (p : rawv) '(ind, t, flags),
      let! (i, t) := add_vertex p.1 t in
      let! flags := if negb (Z.land p.2 BORDER_VERTEX =? 0) then put flags i true else Done flags in
      Done (ind ++ [i], t, flags)) vs (is0, t, flags))
    (λ '(is, t', flags'), ∃ tab' is', vtab_rep cap t' tab' ∧ is = is0 ++ is' ∧ welds tab (fst <$> vs) is' tab')) as H.
  { intros R Hl Hc. eapply gives_mono; [by apply (H t tab [] flags)|]. intros [[is t'] flags'] (tab' & is' & R' & -> & Wd).
    exists tab'. done. }
  clear t tab flags. induction vs as [|p vs IH]; intros t tab is0 flags R Hlen Hcap.
  { cbn. apply gives_done. exists tab, []. rewrite app_nil_r. split; [done|]. split; [done|constructor]. }
  cbn [foldM]. cbn in Hlen. rewrite obind_assoc.
  eapply gives_bind; [eapply gives_runs, (add_vertex_weld cap); [done|lia|done]|].
  intros [i t'] (tab' & R' & Hcase). rewrite obind_assoc.
  assert (length tab' + length vs <= cap)%nat as Hl'.
  { destruct Hcase as [[_ ->]|(_ & _ & ->)]; [lia|]. rewrite app_length. cbn. lia. }
  eapply (gives_bind _ _ (λ _, True)); [done|]. intros flags' _. cbn [obind].
  eapply gives_mono; [by apply (IH t' tab')|]. intros [[is t''] flags''] (tab'' & is' & R'' & -> & Wd).
  exists tab'', (i :: is'). split; [done|]. split; [by rewrite <- app_assoc|].
  rewrite fmap_cons. destruct Hcase as [[Hn ->]|(Hn & -> & ->)]; [by apply welds_old|by apply welds_new].
Qed.

Lemma init_polys_gives nv ind tris : Forall (λ i, (i < nv)%nat) ind → Z.of_nat nv <= 65535 →
  gives (init_polys nvp ind tris) (Forall (tagged nv (λ _ : unit, True))).
Proof.
  intros Hi Hnv. unfold init_polys. apply gives_keep; [constructor|]. intros t acc _ Hacc.
  destruct (_ && _); [|by apply gives_done].
  apply gives_get. intros a Ha. apply gives_get. intros b Hb. apply gives_get. intros c Hc. apply gives_done.
  apply (Forall_lookup_1 _ _ _ _ Hi) in Ha, Hb, Hc. apply Forall_app. split; [done|]. constructor; [|done].
  split; [|done]. apply tri_prow; try lia; left; lia.
Qed.

Record cinv (mv mt : nat) (st : vtab * list bool * imesh) (tab : list vtx) : Prop := {
  ci_rep : vtab_rep mv st.1.1 tab;
  ci_V : Forall V tab;
  ci_shaped : shaped (length tab) st.2;
  ci_nbrs : ∀ r, r ∈ im_polys st.2 → r.2 = repeat NO_INDEX nvp;
  ci_polys : length (im_polys st.2) = mt;
  ci_regs : length (im_regs st.2) = mt;
  ci_areas : length (im_areas st.2) = mt
}.
Definition cgood (c : contour) : Prop := (3 <= length (ct_verts c))%nat → Forall (λ p : rawv, V p.1) (ct_verts c) ∧ RR (ct_reg c) ∧ RA (ct_area c).

Lemma one_contour_gives cap mv mt c st tab : cgood c → Z.of_nat mv <= 65535 → cinv mv mt st tab →
  (length tab + (if (length (ct_verts c) <? 3)%nat then 0 else length (ct_verts c)) <= mv)%nat →
  gives (one_contour cap nvp c st) (λ r, match r with Ok st' => ∃ tab', cinv mv mt st' tab' ∧
    (length tab' <= length tab + (if (length (ct_verts c) <? 3)%nat then 0 else length (ct_verts c)))%nat | Err _ => True end).
Proof.
  intros Hc Hmv I Hl. destruct st as [[t flags] m]. destruct I as [I1 I2 I3 I4 I5 I6 I7]. cbn [fst snd] in *.
  unfold one_contour. destruct (_ <? 3)%nat eqn:E3; [apply gives_done; exists tab; split; [done|lia]|].
  destruct Hc as (HV & HR & HA); [lia|].
  unfold pbind. eapply (gives_bind _ _ (λ _, True)); [done|]. intros [tris|e] _; [|by apply gives_done].
  eapply gives_bind; [by apply (add_contour_flagged mv)|]. intros [[is t'] flags'] (tab' & R' & Wd).
  destruct (welds_length _ _ _ _ Wd) as [Hil Htl]. rewrite fmap_length in Hil, Htl.
  assert (Forall V tab') as V'.
  { apply Forall_forall. intros w Hw. apply (welds_from _ _ _ _ _ Wd) in Hw as [Hw|Hw]; [rewrite Forall_forall in I2; by apply I2|].
    apply elem_of_list_fmap in Hw as (p & -> & Hp). rewrite Forall_forall in HV. by apply HV. }
  destruct (welds_prefix _ _ _ _ Wd) as [ext Eext].
  assert (length tab <= length tab')%nat as Hmono by (rewrite Eext, app_length; lia).
  pose proof (vr_cap _ _ _ R') as Hcap'.
  eapply gives_bind; [apply (init_polys_gives (length tab')); [|lia]|].
  { apply Forall_forall. intros i Hi. apply elem_of_list_lookup in Hi as [k Hk].
    destruct (Forall2_lookup_r _ _ _ _ _ (welds_same _ _ _ _ Wd) Hk) as (v & _ & w & Hw & _). by eapply lookup_lt_Some. }
  intros polys Hpolys. destruct (_ =? 0)%nat.
  { apply gives_done. exists tab'. split; [|done]. split; try done. by eapply shaped_mono. }
  eapply gives_bind; [by eapply (merge_all_gives (length tab') (λ _ : unit, True))|]. intros polys' [Hp' _].
  eapply gives_bind; [eapply (store_polys_gives (length tab'))|].
  - by eapply shaped_mono.
  - done.
  - eapply Forall_impl; [exact Hp'|]. by intros p [? _].
  - done.
  - done.
  - intros m' (S' & N' & (T1 & T2 & T3) & _). apply gives_done. exists tab'. split; [|done]. split; cbn; try done; congruence.
Qed.

Lemma all_contours_gives cap mv mt cs : Z.of_nat mv <= 65535 → ∀ st tab, Forall cgood cs → cinv mv mt st tab →
  (length tab + max_vertices cs <= mv)%nat →
  gives (all_contours cap nvp cs st) (λ r, match r with Ok st' => ∃ tab', cinv mv mt st' tab' | Err _ => True end).
Proof.
  intros Hmv. induction cs as [|c cs IH]; intros st tab Hg I Hl; cbn [all_contours].
  { apply gives_done. by exists tab. }
  apply Forall_cons in Hg as [Hc Hg]. unfold max_vertices in Hl. rewrite live_cons in Hl.
  assert (length tab + (if (length (ct_verts c) <? 3)%nat then 0 else length (ct_verts c)) + max_vertices cs <= mv)%nat as Hl'.
  { destruct (_ <? 3)%nat; unfold max_vertices in *; cbn in *; lia. }
  unfold pbind. eapply gives_bind; [apply (one_contour_gives cap mv mt c st tab); [done|done|done|lia]|].
  intros [st'|e] H; [|by apply gives_done]. destruct H as (tab' & I' & Ht). apply (IH st' tab'); [done|done|lia].
Qed.

(** ** Removing a vertex *)

Section remove.
Context (rem nv : nat) (Hrem : (rem < nv)%nat) (Hnv : Z.of_nat nv <= 65535).
Let r0 := Z.of_nat rem.

(** Ends of hole edges: vertices that stay, or the padding. *)
Definition hend (v : Z) : Prop := 0 <= v <= 65535 ∧ v ≠ r0 ∧ (v < Z.of_nat nv ∨ v = 65535 ∨ W).
Definition hedge_ok (e : hedge) : Prop := hend (he_1 e) ∧ hend (he_2 e) ∧ RR (he_reg e) ∧ RA (he_area e).
Definition edges_ok {E} (P : E → Prop) (st : list E * nat) : Prop := ∀ k e, (k < st.2)%nat → st.1 !! k = Some e → P e.

Lemma shape_entry r j v : shape nv r → (r.1 ++ r.2) !! j = Some v → v = 65535 ∨ (0 <= v < 65535 ∧ inr nv v).
Proof.
  intros [(vs & (-> & Hl & Hv) & F) ->] Hj. rewrite <- app_assoc in Hj.
  apply lookup_app_Some in Hj as [Hj|[_ Hj]].
  - right. split; [by eapply (Forall_lookup_1 _ _ _ _ Hv)|by eapply (Forall_lookup_1 _ _ _ _ F)].
  - left. apply lookup_app_Some in Hj as [Hj|[_ Hj]]; apply elem_of_list_lookup_2, elem_of_list_In, repeat_spec in Hj; done.
Qed.

Lemma hole_edges_gives r reg area st : shape nv r → RR reg → RA area → edges_ok hedge_ok st →
  gives (hole_edges r0 nvp r reg area st) (edges_ok hedge_ok).
Proof.
  intros Hr Hreg Harea Hst. unfold hole_edges. apply gives_keep; [done|].
  intros [j k] [edges ne] _ HI. apply gives_get. intros pj Hpj. apply gives_get. intros pk Hpk.
  destruct (negb _ && negb _) eqn:E; [|by apply gives_done].
  apply gives_put. intros _. apply gives_done.
  apply (shape_entry _ _ _ Hr) in Hpj, Hpk.
  assert (∀ v, v ≠ r0 → v = 65535 ∨ (0 <= v < 65535 ∧ inr nv v) → hend v) as He.
  { intros v Hne [->|[H1 H2]]; [split; [lia|]; split; [done|]; tauto|]. split; [lia|]. split; [done|]. destruct H2; tauto. }
  unfold edges_ok in *. cbn [fst snd] in *. apply put_below; [done|]. apply andb_prop in E as [E1 E2]. split; [apply He; [cbn; lia|done]|]. split; [apply He; [cbn; lia|done]|]. done.
Qed.

(** The rows that stay do not touch the vertex. *)
Definition free (r : list Z * list Z) : Prop := count_rem r0 nvp (r.1 ++ r.2) = 0%nat.

Lemma drop_polys_gives fuel : ∀ i m st, shaped nv m → (∀ k r, (k < i)%nat → im_polys m !! k = Some r → free r) → edges_ok hedge_ok st →
  gives (drop_polys fuel r0 nvp i m st) (λ '(m', st'), shaped nv m' ∧ (∀ k r, (k < im_np m')%nat → im_polys m' !! k = Some r → free r) ∧
    edges_ok hedge_ok st' ∧ same_tables m m' ∧ im_verts m' = im_verts m ∧ im_nv m' = im_nv m ∧ (im_np m' <= im_np m)%nat).
Proof.
  induction fuel as [|fuel IH]; intros i m st Hm Hf Hst; cbn [drop_polys]; destruct (i <? im_np m)%nat eqn:Ei.
  1: apply gives_fuel.
  1, 3: apply gives_done; split; [done|]; split; [intros k r Hk; apply Hf; lia|]; done.
  apply gives_get. intros r Hr. pose proof (sh_rows _ _ Hm i r ltac:(lia) Hr) as Sr.
  destruct (_ =? 0)%nat eqn:Ec.
  { apply IH; [done| |done]. intros k r' Hk Hr'. destruct (decide (k = i)) as [->|]; [|eapply Hf; [|done]; lia].
    assert (r' = r) as -> by congruence. unfold free. lia. }
  apply gives_get. intros reg Hreg. apply gives_get. intros area Harea.
  eapply gives_bind; [apply (hole_edges_gives r reg area st Sr)|].
  { eapply (sh_regs _ _ Hm i); [lia|done]. }
  { eapply (sh_areas _ _ Hm i); [lia|done]. }
  { done. }
  intros st' Hst'. apply gives_get. intros l Hl. pose proof (sh_rows _ _ Hm (im_np m - 1)%nat l ltac:(lia) Hl) as Sl.
  apply gives_put. intros L1. apply gives_get. intros lreg Hlreg. apply gives_put. intros L2. apply gives_get. intros la Hla.
  apply gives_put. intros L3.
  eapply gives_mono; [apply IH; [|..|done]|].
  - destruct Hm as [A B C D E F]. split; cbn; rewrite ?insert_length; [lia| |lia| |lia|].
    + apply put_within; [intros k y Hk; apply B; lia|]. split; [apply Sl|done].
    + apply put_within; [intros k y Hk; apply D; lia|]. eapply D; [|done]. lia.
    + apply put_within; [intros k y Hk; apply F; lia|]. eapply F; [|done]. lia.
  - cbn. intros k r' Hk Hr'. rewrite list_lookup_insert_ne in Hr' by lia. by eapply Hf.
  - intros [m' st''] (H1 & H2 & H3 & T & H4 & H5 & H6). unfold same_tables in T. cbn in *. rewrite !insert_length in T.
    split; [done|]. split; [done|]. split; [done|]. split; [done|]. split; [done|]. split; [done|]. lia.
Qed.

Lemma free_row r vs : padded nvp vs r.1 → free r → r0 ∉ vs.
Proof.
  intros P Hf Hin. unfold free, count_rem in Hf. rewrite (count_whole nvp vs) in Hf by done.
  destruct P as (E & _ & _). rewrite E, <- app_assoc, take_app in Hf.
  apply nil_length_inv in Hf. assert (r0 ∈ filter (λ v, v = r0) vs) as H by (apply elem_of_list_filter; done).
  rewrite Hf in H. by apply elem_of_nil in H.
Qed.

Lemma shift_free r : shape nv r → free r → shape (nv - 1) (shift_row r0 nvp r).
Proof.
  intros [(vs & P & F) En] Hf. pose proof (free_row _ _ P Hf) as Hni. split; [|done].
  unfold shift_row. cbn [fst]. rewrite (count_whole nvp vs) by done. pose proof P as (E & Hl & Hv).
  exists (shift r0 <$> vs). assert (∀ v, v ∈ vs → 0 <= shift r0 v < 65535 ∧ inr (nv - 1) (shift r0 v)) as Hs.
  { intros v Hin. rewrite Forall_forall in F, Hv. specialize (F v Hin). specialize (Hv v Hin). cbn in Hv.
    assert (v ≠ r0) by (intros ->; done). unfold shift, r0, inr in *. destruct (_ <? v) eqn:Ec; destruct F as [F|F]; split; try lia;
      first [by right|left; lia]. }
  split.
  - unfold padded. rewrite fmap_length. split; [|split; [done|]].
    + rewrite E at 1 2. rewrite take_app, drop_app. done.
    + apply Forall_fmap, Forall_forall. intros v Hin. by apply Hs.
  - apply Forall_fmap, Forall_forall. intros v Hin. by apply Hs.
Qed.

Definition hval (v : Z) : Prop := 0 <= v <= 65534 ∧ (v < Z.of_nat nv - 1 ∨ v = 65534 ∨ W).
Definition hitem (h : Z * Z * Z) : Prop := hval h.1.1 ∧ RR h.1.2 ∧ RA h.2.
Definition sedge_ok (e : hedge) : Prop := hval (he_1 e) ∧ hval (he_2 e) ∧ RR (he_reg e) ∧ RA (he_area e).
Lemma shift_hend v : hend v → hval (shift r0 v).
Proof. unfold hend, hval, shift, r0. intros (H1 & H2 & H3). destruct (_ <? v) eqn:E; (split; [lia|]); destruct H3 as [?|[?|?]]; first [by right; right|left; lia|right; left; lia]. Qed.

Lemma hole_loop_gives fuel cap : ∀ edges ne hole i b, edges_ok sedge_ok (edges, ne) → Forall hitem hole →
  gives (hole_loop fuel cap edges ne hole i b) (Forall hitem).
Proof.
  induction fuel as [|fuel IH]; intros edges ne hole i b He Hh; cbn [hole_loop]; [apply gives_fuel|].
  destruct (i <? ne)%nat eqn:Ei.
  2: { destruct (b && _); [by apply IH|by apply gives_done]. }
  apply gives_get. intros d Hd. apply gives_get. intros h _. apply gives_get. intros t _.
  destruct (He i d) as (D1 & D2 & D3 & D4); [cbn; lia|done|].
  assert (∀ l edges', edges !! (ne - 1)%nat = Some l → edges' = <[S i := l]> edges → edges_ok sedge_ok (edges', (ne - 1)%nat)) as Hp.
  { intros l edges' Hl -> k e Hk. cbn in *. apply (put_within sedge_ok _ (ne - 1)); [|apply (He (ne - 1)%nat); [cbn; lia|done]|done].
    intros j y Hj. apply He. cbn. lia. }
  destruct (_ =? he_2 d); [|destruct (_ =? he_1 d); [|by apply IH]].
  - unfold push_hole. destruct (_ <? cap)%nat; [|apply gives_panic]. cbn [obind].
    apply gives_get. intros l Hl. apply gives_put. intros _. apply IH; [by eapply Hp|]. by constructor.
  - unfold push_hole. destruct (_ <? cap)%nat; [|apply gives_panic]. cbn [obind].
    apply gives_get. intros l Hl. apply gives_put. intros _. apply IH; [by eapply Hp|].
    apply Forall_app. split; [done|]. constructor; [done|constructor].
Qed.

Lemma drop_vertex_gives m : im_nv m = nv → (∀ k v, (k < nv)%nat → im_verts m !! k = Some v → V v) →
  gives (drop_vertex rem m) (λ m', im_nv m' = (nv - 1)%nat ∧ length (im_verts m') = length (im_verts m) ∧
    (∀ k v, (k < nv)%nat → im_verts m' !! k = Some v → V v) ∧ im_polys m' = im_polys m ∧ im_np m' = im_np m ∧
    im_regs m' = im_regs m ∧ im_areas m' = im_areas m).
Proof.
  intros En HV. unfold drop_vertex. destruct (_ =? 0)%nat; [apply gives_panic|]. rewrite En.
  eapply (gives_bind _ _ (λ vs, length vs = length (im_verts m) ∧ ∀ k v, (k < nv)%nat → vs !! k = Some v → V v)).
  - apply gives_keep; [done|]. intros i vs Hi [Hl Hvs]. apply elem_of_seq in Hi. apply gives_get. intros v Hv.
    assert (∀ Q : list vtx → Prop, Q (<[i := v]> vs) → gives (put vs i v) Q) as Hput by (intros Q HQ a [_ ->]%put_done; done).
    apply Hput. split; [by rewrite insert_length|]. apply put_within; [done|]. eapply Hvs; [|done]. lia.
  - intros vs [Hl Hvs]. apply gives_done. done.
Qed.

Lemma hole_polys_gives hole tris : Forall (λ h : Z * Z * Z, (0 <= h.1.1 < 65535 ∧ inr (nv - 1) h.1.1) ∧ RR h.1.2 ∧ RA h.2) hole →
  gives (hole_polys nvp hole tris) (Forall (tagged (nv - 1) (λ t : Z * Z, RR t.1 ∧ RA t.2))).
Proof.
  intros Hh. unfold hole_polys. apply gives_keep; [constructor|]. intros t acc _ Hacc.
  destruct (_ && _); [|by apply gives_done].
  apply gives_get. intros [[hx rx] ax] Hx. apply gives_get. intros [[hy ry] ay] Hy. apply gives_get. intros [[hz rz] az] Hz.
  apply (Forall_lookup_1 _ _ _ _ Hh) in Hx as ((? & ?) & ? & ?), Hy as ((? & ?) & ? & ?), Hz as ((? & ?) & ? & ?). cbn in *.
  apply gives_done. apply Forall_app. split; [done|]. constructor; [|done].
  split; [by apply tri_prow|]. cbn. split; [|done]. by destruct (_ || _).
Qed.

Lemma store_hole_gives mt (ps : list (trow (Z * Z))) : ∀ m, shaped (nv - 1) m → Forall (tagged (nv - 1) (λ t : Z * Z, RR t.1 ∧ RA t.2)) ps →
  gives (store_hole mt nvp ps m) (λ r, match r with Ok m' => shaped (nv - 1) m' ∧ im_verts m' = im_verts m ∧ im_nv m' = im_nv m ∧ same_tables m m' | Err _ => True end).
Proof.
  induction ps as [|[row [reg area]] ps IH]; intros m Hm HF; cbn [store_hole]; [by apply gives_done|].
  apply Forall_cons in HF as [(Hrow & Hreg & Harea) HF]. cbn in *.
  destruct (_ <=? _)%nat; [by apply gives_done|].
  apply gives_put. intros L1. apply gives_put. intros L2. apply gives_put. intros L3.
  eapply gives_mono; [apply IH; [|done]|].
  - by apply shaped_push.
  - intros [m'|e]; [|done]. unfold same_tables. cbn. rewrite !insert_length. done.
Qed.

Lemma mapM_get_lt {A B} (f : A → nat) (l : list A) (vs : list B) r : mapM_o (λ a, get vs (f a)) l = Done r → Forall (λ a, (f a < length vs)%nat) l.
Proof.
  revert r. induction l as [|a l IH]; intros r E; [constructor|]. cbn in E.
  apply obind_done in E as (x & Hx & E). apply obind_done in E as (y & Hy & E). constructor; [|by eapply IH].
  apply get_done in Hx. by eapply lookup_lt_Some.
Qed.

Lemma remove_vertex_gives fuel mv mt m : shaped nv m → im_nv m = nv → length (im_verts m) = mv →
  (∀ k v, (k < nv)%nat → im_verts m !! k = Some v → V v) → Z.of_nat mv < 65535 ∨ W →
  gives (remove_vertex fuel rem mt nvp m) (λ r, match r with Ok m' => shaped (nv - 1) m' ∧ im_nv m' = (nv - 1)%nat ∧
    length (im_verts m') = mv ∧ (∀ k v, (k < nv)%nat → im_verts m' !! k = Some v → V v) ∧ same_tables m m' | Err _ => True end).
Proof.
  intros Hm En El HV HW. unfold remove_vertex. fold r0. destruct (_ <? im_np m)%nat; [apply gives_panic|].
  generalize (sum_list ((λ row, count_rem r0 nvp (row.1 ++ row.2)) <$> take (im_np m) (im_polys m)) * nvp)%nat. intros cap.
  eapply gives_bind; [apply (drop_polys_gives _ 0 m (repeat hedge0 cap, 0%nat)); [done|intros; lia|intros k e Hk; cbn in Hk; lia]|].
  intros [m1 [edges ne]] (S1 & F1 & E1 & T1 & V1 & N1 & P1).
  eapply gives_bind; [apply drop_vertex_gives; [congruence|by rewrite V1]|].
  intros m2 (N2 & L2 & V2 & Q1 & Q2 & Q3 & Q4). cbn beta zeta.
  set (m3 := IM (im_verts m2) (im_nv m2) _ _ _ _).
  set (edges' := (_ <$> take ne edges) ++ drop ne edges).
  assert (shaped (nv - 1) m3) as S3.
  { destruct S1 as [A B C D E F]. unfold m3. split; cbn; rewrite ?Q1, ?Q2, ?Q3, ?Q4; try done.
    - rewrite app_length, fmap_length, take_length, drop_length. lia.
    - intros i r Hi Hr. rewrite lookup_app_l in Hr by (rewrite fmap_length, take_length; lia).
      rewrite list_lookup_fmap, lookup_take in Hr by lia. destruct (im_polys m1 !! i) as [r'|] eqn:Hr'; [|done].
      injection Hr as <-. apply shift_free; [by eapply B|by eapply F1]. }
  assert (same_tables m m3) as T3.
  { destruct T1 as (? & ? & ?). unfold m3, same_tables. cbn. rewrite app_length, fmap_length, take_length, drop_length, Q1, Q3, Q4. split; [lia|]. done. }
  assert (edges_ok sedge_ok (edges', ne)) as E3.
  { intros k e Hk He. cbn in *. unfold edges' in He. apply lookup_app_Some in He as [He|[Hge He]].
    - rewrite list_lookup_fmap, lookup_take in He by lia. destruct (edges !! k) as [e'|] eqn:He'; [|done]. injection He as <-.
      destruct (E1 k e') as (H1 & H2 & H3 & H4); [cbn; lia|done|]. split; [by apply shift_hend|]. split; [by apply shift_hend|]. done.
    - rewrite fmap_length, take_length in Hge, He. rewrite lookup_drop in He. apply lookup_lt_Some in He. lia. }
  destruct (ne =? 0)%nat eqn:Ene.
  { apply gives_done. split; [done|]. split; [done|]. split; [cbn; congruence|]. done. }
  apply gives_get. intros e He. destruct (E3 0%nat e) as (D1 & D2 & D3 & D4); [cbn; lia|done|].
  unfold push_hole. destruct (_ <? cap)%nat; [|apply gives_panic]. cbn [obind].
  eapply gives_bind; [apply hole_loop_gives; [done|]|].
  { constructor; [done|constructor]. }
  intros hole Hhole.
  eapply (gives_bind _ _ (λ _, Forall (λ h : Z * Z * Z, (Z.to_nat h.1.1 < mv)%nat) hole)).
  { intros r Hr. apply mapM_get_lt in Hr. eapply Forall_impl; [exact Hr|]. cbn. intros h. rewrite L2, V1, El. done. }
  intros tverts Hlt.
  assert (Forall (λ h : Z * Z * Z, (0 <= h.1.1 < 65535 ∧ inr (nv - 1) h.1.1) ∧ RR h.1.2 ∧ RA h.2) hole) as Hh.
  { apply Forall_forall. intros h Hin. rewrite Forall_forall in Hhole, Hlt. destruct (Hhole h Hin) as ((H1 & H2) & H3). specialize (Hlt h Hin).
    cbn in *. split; [|done]. split; [lia|]. unfold inr. destruct H2 as [?|[?|?]]; [left; lia| |by right].
    destruct HW as [HW|HW]; [lia|by right]. }
  unfold pbind. eapply (gives_bind _ _ (λ _, True)); [done|]. intros [tris|err] _; [|by apply gives_done].
  eapply gives_bind; [by apply hole_polys_gives|]. intros polys Hp.
  destruct (length polys =? 0)%nat.
  { apply gives_done. split; [done|]. split; [done|]. split; [cbn; congruence|]. done. }
  eapply gives_bind; [eapply (merge_all_gives (nv - 1) (λ t : Z * Z, RR t.1 ∧ RA t.2)); [|done]|].
  { intros [s1 s2] [t1 t2] [? ?] [? ?]. unfold join_tag. cbn in *. by destruct (negb _). }
  intros polys' [Hp' _].
  eapply gives_mono; [by apply store_hole_gives|]. intros [m'|err]; [|done]. intros (S' & Ev' & En' & (? & ? & ?)).
  split; [done|]. rewrite Ev', En'. split; [done|]. split; [cbn; congruence|]. split; [done|].
  destruct T3 as (? & ? & ?). unfold same_tables. split; [congruence|]. split; congruence.
Qed.
End remove.

Lemma remove_flagged_gives fuel hf mv mt : ∀ i flags m, shaped (im_nv m) m → length (im_verts m) = mv → (im_nv m <= mv)%nat → Z.of_nat mv <= 65535 →
  (∀ k v, (k < im_nv m)%nat → im_verts m !! k = Some v → V v) → Z.of_nat mv < 65535 ∨ W →
  gives (remove_flagged fuel hf mt nvp i flags m) (λ r, match r with Ok m' => shaped (im_nv m') m' ∧ length (im_verts m') = mv ∧ (im_nv m' <= mv)%nat ∧
    (∀ k v, (k < im_nv m')%nat → im_verts m' !! k = Some v → V v) ∧ same_tables m m' | Err _ => True end).
Proof.
  induction fuel as [|fuel IH]; intros i flags m Hm El Hle Hmv HV HW; cbn [remove_flagged]; destruct (i <? im_nv m)%nat eqn:Ei.
  1: apply gives_fuel.
  1, 3: by apply gives_done.
  apply gives_get. intros [|] _; [|by apply IH].
  eapply (gives_bind _ _ (λ _, True)); [done|]. intros can _. destruct can; cbn [negb]; [|by apply IH].
  unfold pbind. eapply gives_bind; [apply (remove_vertex_gives i (im_nv m) ltac:(lia) ltac:(lia) hf mv mt m); done|].
  intros [m'|e]; [|intros _; by apply gives_done]. intros (S' & N' & L' & V' & (T1 & T2 & T3)).
  destruct (_ || _); [apply gives_panic|].
  eapply gives_mono; [apply IH|].
  - by rewrite N'.
  - done.
  - lia.
  - done.
  - intros k v Hk. apply V'. lia.
  - done.
  - intros [m''|e]; [|done]. intros (? & ? & ? & ? & (? & ? & ?)). split; [done|]. split; [done|]. split; [done|]. split; [done|].
    split; [congruence|]. split; congruence.
Qed.
End shape.

(** ** Adjacency and portals *)

Definition eok (np : nat) (d : edge) : Prop := 0 <= e_p0 d < Z.of_nat np ∧ 0 <= e_p1 d < Z.of_nat np.

Lemma wrap_below i np : (i < np)%nat → 0 <= wrap_u16 (Z.of_nat i) < Z.of_nat np.
Proof. intros H. unfold wrap_u16. pose proof (Z.mod_pos_bound (Z.of_nat i) 65536). pose proof (Z.mod_le (Z.of_nat i) 65536). lia. Qed.
Lemma Forall_put {A} (P : A → Prop) l i x : Forall P l → P x → Forall P (<[i := x]> l).
Proof. apply Forall_insert. Qed.

Lemma collect_edges_gives k t nvp np i : (i < np)%nat → ∀ j e, Forall (eok np) (et_edges e) → gives (collect_edges k t nvp i j e) (λ e', Forall (eok np) (et_edges e')).
Proof.
  intros Hi. induction k as [|k IH]; intros j e He; cbn [collect_edges]; [by apply gives_done|].
  apply gives_get. intros v0 _. destruct (_ =? _); [by apply gives_done|].
  eapply (gives_bind _ _ (λ _, True)); [done|]. intros v1 _.
  eapply (gives_bind _ _ (λ e', Forall (eok np) (et_edges e'))); [|intros e' He'; by apply IH].
  destruct (_ <? _); [|by apply gives_done].
  apply gives_put. intros _. apply gives_get. intros f _. apply gives_put. intros _. apply gives_put. intros _. apply gives_done. cbn.
  apply Forall_put; [done|]. split; cbn; by apply wrap_below.
Qed.
Lemma match_edge_gives fuel v0 i j np : (i < np)%nat → ∀ c e, Forall (eok np) (et_edges e) → gives (match_edge fuel v0 i j c e) (λ e', Forall (eok np) (et_edges e')).
Proof.
  intros Hi. induction fuel as [|fuel IH]; intros c e He; cbn [match_edge]; (destruct (c =? _); [by apply gives_done|]); [apply gives_fuel|].
  apply gives_get. intros d Hd. destruct (_ && _).
  - apply gives_put. intros _. apply gives_done. cbn. apply Forall_put; [done|]. apply (Forall_lookup_1 _ _ _ _ He) in Hd as [? ?].
    split; cbn; [done|]. by apply wrap_below.
  - apply gives_get. intros c' _. by apply IH.
Qed.

(** Neighbours: none, or a polygon. *)
Definition nbok (np : nat) (nvp : nat) (n : list Z) : Prop := length n = nvp ∧ Forall (λ q, q = 65535 ∨ 0 <= q < Z.of_nat np) n.
Definition rows_kept (np nvp : nat) (ps ps' : list (list Z * list Z)) : Prop := ps'.*1 = ps.*1 ∧ ∀ i r, (i < np)%nat → ps' !! i = Some r → nbok np nvp r.2.

Lemma put_nbr_gives np nvp ps ps' p e q : (p < np)%nat → 0 <= q < Z.of_nat np → rows_kept np nvp ps ps' → gives (put_nbr ps' p e q) (rows_kept np nvp ps).
Proof.
  intros Hp Hq [E1 H]. unfold put_nbr. apply gives_get. intros r Hr. apply gives_put. intros _. intros l [_ ->]%put_done. split.
  - rewrite list_fmap_insert, E1. apply list_insert_id. rewrite <- E1, list_lookup_fmap, Hr. done.
  - apply put_within; [done|]. cbn. destruct (H p r) as [Hl HF]; [done|done|]. split; [by rewrite insert_length|]. apply Forall_put; [done|]. by right.
Qed.
Lemma build_adjacency_gives nvp nv np ps : (∀ i r, (i < np)%nat → ps !! i = Some r → r.2 = repeat NO_INDEX nvp) →
  gives (build_adjacency nvp nv np ps) (rows_kept np nvp ps).
Proof.
  intros Hn. unfold build_adjacency.
  assert (rows_kept np nvp ps ps) as H0.
  { split; [done|]. intros i r Hi Hr. rewrite (Hn i r Hi Hr). split; [apply repeat_length|]. apply Forall_forall.
    intros q Hq%elem_of_list_In%repeat_spec. left. done. }
  destruct (decide (np = 0%nat)) as [->|Hnp].
  { cbn. apply gives_done. done. }
  eapply (gives_bind _ _ (λ e, Forall (eok np) (et_edges e))).
  { apply (gives_keep (λ e, Forall (eok np) (et_edges e))).
    - cbn. apply Forall_forall. intros d Hd%elem_of_list_In%repeat_spec. subst d. split; cbn; lia.
    - intros i e Hi He. apply elem_of_seq in Hi. apply gives_get. intros t _. apply collect_edges_gives; [lia|done]. }
  intros e1 He1. eapply (gives_bind _ _ (λ e, Forall (eok np) (et_edges e))).
  { apply gives_keep; [done|]. intros i e Hi He. apply elem_of_seq in Hi. apply gives_get. intros t _.
    unfold match_edges. apply gives_keep; [done|]. intros j e' _ He'. unfold match_slot. apply gives_get. intros v0 _.
    eapply (gives_bind _ _ (λ _, True)); [done|]. intros v1 _. destruct (_ <? _); [|by apply gives_done].
    apply gives_get. intros c _. apply match_edge_gives; [lia|done]. }
  intros e2 He2. apply (gives_keep (rows_kept np nvp ps)); [done|]. intros d ps' Hd Hps'.
  apply elem_of_take in Hd as (k & Hd & _). apply (Forall_lookup_1 _ _ _ _ He2) in Hd as [D1 D2].
  unfold store_edge. destruct (_ =? _); [by apply gives_done|].
  eapply gives_bind; [apply (put_nbr_gives np nvp ps); [lia|done|done]|]. intros ps'' H''. apply put_nbr_gives; [lia|done|done].
Qed.

(** Portals are written over missing neighbours only. *)
Definition nbport (np nvp : nat) (n : list Z) : Prop := length n = nvp ∧ Forall (λ q, q = 65535 ∨ 0 <= q < Z.of_nat np ∨ 32768 <= q <= 32771) n.
Definition rows_port (np nvp : nat) (ps ps' : list (list Z * list Z)) : Prop := ps'.*1 = ps.*1 ∧ ∀ i r, (i < np)%nat → ps' !! i = Some r → nbport np nvp r.2.

Lemma find_portals_gives w h nvp np verts ps ps0 : rows_kept np nvp ps0 ps → gives (find_portals w h nvp np verts ps) (rows_port np nvp ps0).
Proof.
  intros [E1 H]. unfold find_portals. apply (gives_keep (rows_port np nvp ps0)).
  { split; [done|]. intros i r Hi Hr. destruct (H i r Hi Hr) as [? HF]. split; [done|]. eapply Forall_impl; [exact HF|]. cbn. tauto. }
  intros i ps' Hi [E' H']. apply elem_of_seq in Hi. apply gives_get. intros r Hr.
  eapply (gives_bind _ _ (λ r', r'.1 = r.1 ∧ nbport np nvp r'.2)).
  { unfold portal_row. apply gives_keep; [split; [done|]; apply (H' i); [lia|done]|].
    intros j r' _ [F1 [F2 F3]]. unfold portal_slot. apply gives_get. intros v0 _. apply gives_get. intros nb _.
    destruct (negb _); [by apply gives_done|]. eapply (gives_bind _ _ (λ _, True)); [done|]. intros v1 _.
    apply gives_get. intros va _. apply gives_get. intros vb _. destruct (portal w h va vb) as [p|] eqn:Ep; [|by apply gives_done].
    apply gives_put. intros _. apply gives_done. cbn. split; [done|]. split; [by rewrite insert_length|]. apply Forall_put; [done|].
    right; right. by eapply portal_range. }
  intros r' [F1 F2] l [_ ->]%put_done. split.
  - rewrite list_fmap_insert, E'. apply list_insert_id. rewrite <- E', list_lookup_fmap, Hr. cbn. by rewrite F1.
  - apply put_within; [done|]. done.
Qed.

(** Which portals are written. *)
Definition ported (w h : Z) (nvp : nat) (verts : list vtx) (row n n' : list Z) : Prop :=
  ∀ vs, padded nvp vs row → ∀ e q, (e < length vs)%nat → n !! e = Some q →
    (q ≠ NO_INDEX → n' !! e = Some q) ∧
    (q = NO_INDEX → ∃ va vb, verts !! Z.to_nat (vs !!! e) = Some va ∧ verts !! Z.to_nat (vs !!! nx e (length vs)) = Some vb ∧
       n' !! e = Some (default NO_INDEX (portal w h va vb))).

Lemma portal_row_ported w h nvp verts r vs : padded nvp vs r.1 →
  gives (portal_row w h nvp verts r) (λ r', r'.1 = r.1 ∧ ported w h nvp verts r.1 r.2 r'.2).
Proof.
  intros P. unfold portal_row. rewrite (count_padded _ _ _ P).
  assert (∀ vs', padded nvp vs' r.1 → vs' = vs) as Hone.
  { intros vs' P'. pose proof (count_padded _ _ _ P) as C1. rewrite (count_padded _ _ _ P') in C1.
    destruct P as (E1 & _ & _), P' as (E2 & _ & _). rewrite E1 in E2. symmetry in E2. by apply app_inj_1 in E2 as [? _]. }
  eapply gives_mono; [apply (gives_seq (λ j r', r'.1 = r.1 ∧ (∀ e, (j <= e)%nat → r'.2 !! e = r.2 !! e) ∧
    ∀ e q, (e < j)%nat → r.2 !! e = Some q → (q ≠ NO_INDEX → r'.2 !! e = Some q) ∧
      (q = NO_INDEX → ∃ va vb, verts !! Z.to_nat (vs !!! e) = Some va ∧ verts !! Z.to_nat (vs !!! nx e (length vs)) = Some vb ∧
       r'.2 !! e = Some (default NO_INDEX (portal w h va vb)))))|].
  - split; [done|]. split; [done|]. intros. lia.
  - intros j r' Hj (E1 & Hrest & Hdone). unfold portal_slot. rewrite E1. apply gives_get. intros v0 Hv0. apply gives_get. intros nb Hnb.
    rewrite (padded_get _ _ _ _ P) in Hv0 by done.
    assert (∀ e, (S j <= e)%nat → r'.2 !! e = r.2 !! e) as Hrest' by (intros; apply Hrest; lia).
    rewrite Hrest in Hnb by lia.
    destruct (negb (nb =? NO_INDEX)) eqn:En.
    { apply gives_done. split; [done|]. split; [done|]. intros e q He Hq. destruct (decide (e = j)) as [->|]; [|apply Hdone; [lia|done]].
      assert (q = nb) as -> by congruence. split; [intros _; rewrite Hrest by lia; done|]. intros ->. by rewrite Z.eqb_refl in En. }
    assert (nb = NO_INDEX) as -> by lia.
    rewrite (next_vert_done _ _ _ _ P) by done. cbn [obind].
    apply gives_get. intros va Hva. apply gives_get. intros vb Hvb.
    rewrite <- (list_lookup_total_correct _ _ _ Hv0) in Hva.
    destruct (portal w h va vb) as [c|] eqn:Ep.
    + apply gives_put. intros Hlt. apply gives_done. cbn. split; [done|]. split.
      { intros e He. rewrite list_lookup_insert_ne by lia. apply Hrest. lia. }
      intros e q He Hq. destruct (decide (e = j)) as [->|Hne].
      * assert (q = NO_INDEX) as -> by congruence. split; [done|]. intros _. exists va, vb. split; [done|]. split; [done|].
        rewrite list_lookup_insert by done. by rewrite Ep.
      * rewrite list_lookup_insert_ne by done. apply Hdone; [lia|done].
    + apply gives_done. split; [done|]. split; [done|]. intros e q He Hq. destruct (decide (e = j)) as [->|]; [|apply Hdone; [lia|done]].
      assert (q = NO_INDEX) as -> by congruence. split; [done|]. intros _. exists va, vb. split; [done|]. split; [done|].
      rewrite Hrest by lia. rewrite Hnb, Ep. done.
  - intros r' (E1 & _ & H). split; [done|]. intros vs' P'. rewrite (Hone _ P'). intros e q He. by apply H.
Qed.

Lemma find_portals_ported w h nvp np verts ps : (∀ i r, (i < np)%nat → ps !! i = Some r → ∃ vs, padded nvp vs r.1) →
  gives (find_portals w h nvp np verts ps) (λ ps', ∀ i r', (i < np)%nat → ps' !! i = Some r' →
    ∃ r, ps !! i = Some r ∧ r'.1 = r.1 ∧ ported w h nvp verts r.1 r.2 r'.2).
Proof.
  intros Hp. unfold find_portals.
  eapply gives_mono; [apply (gives_seq (λ k ps', (∀ i, (k <= i)%nat → ps' !! i = ps !! i) ∧
    ∀ i r', (i < k)%nat → ps' !! i = Some r' → ∃ r, ps !! i = Some r ∧ r'.1 = r.1 ∧ ported w h nvp verts r.1 r.2 r'.2))|].
  - split; [done|]. intros. lia.
  - intros k ps' Hk (Hrest & Hdone). apply gives_get. intros r Hr. rewrite Hrest in Hr by lia. destruct (Hp k r Hk Hr) as (vs & P).
    eapply gives_bind; [by apply (portal_row_ported _ _ _ _ _ vs)|]. intros r' [E1 HP]. apply gives_put_end. intros Hlt. split.
    + intros i Hi. rewrite list_lookup_insert_ne by lia. apply Hrest. lia.
    + intros i r1 Hi Hr1. destruct (decide (i = k)) as [->|Hne].
      * rewrite list_lookup_insert in Hr1 by done. injection Hr1 as <-. by exists r.
      * rewrite list_lookup_insert_ne in Hr1 by done. apply Hdone; [lia|done].
  - intros ps' [_ H]. exact H.
Qed.

(** ** The whole function *)

Lemma into_polygon_mesh_gives (nvp : nat) (V : vtx → Prop) (RR RA : Z → Prop) hf ks :
  (3 <= nvp)%nat → RR 0 → Forall (cgood V RR RA) (ks_contours ks) →
  gives (into_polygon_mesh hf nvp ks) (λ r, match r with Err _ => True | Ok pm =>
    length (pm_nbrs pm) = length (pm_polys pm) ∧ length (pm_flags pm) = length (pm_polys pm) ∧
    length (pm_areas pm) = length (pm_polys pm) ∧ (length (pm_polys pm) <= length (pm_regs pm))%nat ∧
    (length (pm_polys pm) <= max_tris (ks_contours ks))%nat ∧ Forall V (pm_verts pm) ∧ Forall (prow nvp (65535 <= Z.of_nat (max_vertices (ks_contours ks))) (length (pm_verts pm))) (pm_polys pm) ∧
    Forall (λ n, length n = nvp ∧ Forall (λ q, q = 65535 ∨ 0 <= q < Z.of_nat (length (pm_polys pm)) ∨ (0 < ks_border ks ∧ 32768 <= q <= 32771)) n) (pm_nbrs pm) ∧
    Forall RA (pm_areas pm) ∧ Forall RR (take (length (pm_polys pm)) (pm_regs pm)) ∧
    ∃ verts, pm_verts pm = take (length (pm_verts pm)) verts ∧ ∀ p row n, pm_polys pm !! p = Some row → pm_nbrs pm !! p = Some n →
      ∃ n0, nbok (length (pm_polys pm)) nvp n0 ∧ if 0 <? ks_border ks then ported (ks_w ks) (ks_h ks) nvp verts row n0 n else n = n0 end).
Proof.
  intros H3 HR0 Hg. unfold into_polygon_mesh. set (mv := max_vertices (ks_contours ks)). set (mt := max_tris (ks_contours ks)).
  destruct (65535 <? Z.of_nat mv) eqn:Emv; [by apply gives_done|]. cbn zeta.
  set (W := 65535 <= Z.of_nat mv).
  unfold pbind. eapply gives_bind.
  { apply (all_contours_gives nvp H3 W V RR RA (max_verts_per_cont (ks_contours ks)) mv mt (ks_contours ks) ltac:(lia) _ []); [done| |cbn; fold mv; lia].
    split; cbn; rewrite ?repeat_length; try done.
    - apply empty_rep.
    - split; cbn; intros; lia.
    - intros r Hr%elem_of_list_In%repeat_spec. by subst r. }
  intros [[[t flags] m]|e]; [|intros _; by apply gives_done].
  intros (tab & [R1 HV S1 _ L1 L2 L3]). cbn [fst snd] in *.
  set (m1 := IM (vt_verts t) (vt_n t) (take (im_np m) (im_polys m)) (im_np m) (im_regs m) (im_areas m)).
  assert (shaped nvp W RR RA (im_nv m1) m1) as S2.
  { destruct S1 as [A B C D E F]. cbn. rewrite (vr_n _ _ _ R1). split; cbn; try done.
    - rewrite take_length. lia.
    - intros i r Hi Hr. rewrite lookup_take in Hr by done. by eapply B. }
  assert (∀ k v, (k < im_nv m1)%nat → im_verts m1 !! k = Some v → V v) as HV1.
  { cbn. rewrite (vr_n _ _ _ R1). intros k v Hk Hv. rewrite Forall_lookup in HV. apply (HV k).
    rewrite <- (vr_verts _ _ _ R1). rewrite lookup_take by done. done. }
  eapply gives_bind.
  { apply (remove_flagged_gives nvp H3 W V RR RA HR0 (2 * im_nv m1) hf mv mt 0 flags m1 S2).
    - apply (vr_vlen _ _ _ R1).
    - cbn. rewrite (vr_n _ _ _ R1). apply (vr_cap _ _ _ R1).
    - lia.
    - done.
    - unfold W. lia. }
  intros [m2|e]; [|intros _; by apply gives_done]. intros (S3 & Lv & Hnv & HV2 & T).
  destruct S3 as [A B C D E F].
  eapply gives_bind; [apply build_adjacency_gives; intros i r Hi Hr; by apply (B i r)|]. intros ps Hps.
  eapply (gives_bind _ _ (λ ps', ps'.*1 = (im_polys m2).*1 ∧ ∀ i r, (i < im_np m2)%nat → ps' !! i = Some r →
     (length r.2 = nvp ∧ Forall (λ q, q = 65535 ∨ 0 <= q < Z.of_nat (im_np m2) ∨ (0 < ks_border ks ∧ 32768 <= q <= 32771)) r.2) ∧
     ∃ n0, nbok (im_np m2) nvp n0 ∧ if 0 <? ks_border ks then ported (ks_w ks) (ks_h ks) nvp (im_verts m2) r.1 n0 r.2 else r.2 = n0)).
  { destruct (0 <? ks_border ks) eqn:Eb.
    - intros ps' Eps'. pose proof (find_portals_gives _ _ _ _ _ _ _ Hps _ Eps') as [? H].
      assert (∀ i r, (i < im_np m2)%nat → ps !! i = Some r → ∃ vs, padded nvp vs r.1) as Hpad.
      { intros i r Hi Hr. destruct Hps as [Ep _]. assert ((im_polys m2).*1 !! i = Some r.1) as Hr1 by (rewrite <- Ep, list_lookup_fmap, Hr; done).
        rewrite list_lookup_fmap in Hr1. destruct (im_polys m2 !! i) as [r2|] eqn:Hr2; [|done]. injection Hr1 as <-.
        destruct (B i r2 Hi Hr2) as [(vs & P & _) _]. by exists vs. }
      pose proof (find_portals_ported _ _ _ _ _ _ Hpad _ Eps') as HP.
      split; [done|]. intros i r Hi Hr. split.
      + destruct (H i r Hi Hr) as [? HF]. split; [done|]. eapply Forall_impl; [exact HF|]. cbn. intros q [?|[?|?]]; [tauto|tauto|].
        right; right. split; [lia|done].
      + destruct (HP i r Hi Hr) as (r0 & Hr0 & -> & HX). exists r0.2. split; [|done]. destruct Hps as [_ Hps]. by apply (Hps i).
    - apply gives_done. destruct Hps as [? H]. split; [done|]. intros i r Hi Hr. split.
      + destruct (H i r Hi Hr) as [? HF]. split; [done|]. eapply Forall_impl; [exact HF|]. cbn. tauto.
      + exists r.2. split; [by apply (H i)|done]. }
  intros ps' [E1 Hn]. apply gives_done. unfold finish_mesh. cbn.
  assert (length ps' = length (im_polys m2)) as Lp by (rewrite <- (fmap_length fst ps'), E1, fmap_length; done).
  assert (im_np m2 <= length ps')%nat as Lnp by lia.
  assert (length (take (im_nv m2) (im_verts m2)) = im_nv m2) as Ln by (rewrite take_length; lia).
  rewrite !fmap_length, repeat_length, Ln, !take_length. rewrite !Nat.min_l by lia.
  split; [done|]. split; [done|]. split; [done|]. split; [done|].
  split; [destruct T as [T _]; cbn in T; rewrite take_length in T; fold mt; lia|].
  split; [|split; [|split; [|split; [|split]]]].
  - apply Forall_lookup. intros i v Hv. apply lookup_take_Some in Hv as [Hv Hi]. by eapply HV2.
  - apply Forall_lookup. intros i row Hr. rewrite list_lookup_fmap in Hr. destruct (take (im_np m2) ps' !! i) as [r|] eqn:Hr'; [|done].
    injection Hr as <-. apply lookup_take_Some in Hr' as [Hr' Hi].
    assert ((im_polys m2).*1 !! i = Some r.1) as Hr1 by (rewrite <- E1, list_lookup_fmap, Hr'; done).
    rewrite list_lookup_fmap in Hr1. destruct (im_polys m2 !! i) as [r2|] eqn:Hr2; [|done]. injection Hr1 as <-. by apply (B i r2).
  - apply Forall_lookup. intros i n Hr. rewrite list_lookup_fmap in Hr. destruct (take (im_np m2) ps' !! i) as [r|] eqn:Hr'; [|done].
    injection Hr as <-. apply lookup_take_Some in Hr' as [Hr' Hi]. by apply (Hn i).
  - apply Forall_lookup. intros i a Ha. apply lookup_take_Some in Ha as [Ha Hi]. by eapply F.
  - apply Forall_lookup. intros i a Ha. apply lookup_take_Some in Ha as [Ha Hi]. by eapply D.
  - exists (im_verts m2). split; [done|]. intros p row n Hrow Hnb. rewrite list_lookup_fmap in Hrow, Hnb.
    destruct (take (im_np m2) ps' !! p) as [r|] eqn:Hr; [|done]. injection Hrow as <-. injection Hnb as <-.
    apply lookup_take_Some in Hr as [Hr Hi]. by apply (Hn p).
Qed.
