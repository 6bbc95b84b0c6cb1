(** Theorem C137: how inputs are chunked. *)
From Coq Require Import String.
From Verif Require Import Base Chunks.
Open Scope nat_scope.

(** Specification. Sizes of an array along its dimensions; the same array in other
    chunks; no spatial dimension in several chunks. *)
Definition sizes (a : arr) : list (string * nat) := map (fun kv => (fst kv, fold_right Nat.add 0 (snd kv))) (a_axes a).
Definition spatial (h : held) (d : string) : Prop := d = h_x h \/ h_y h = Some d.
Definition single_in_space (h : held) (a : arr) : Prop := forall d, spatial h d -> multiple a d = None.
Definition other_chunks_kept (h : held) (a a' : arr) : Prop := forall d, ~ spatial h d -> lookup d (a_axes a') = lookup d (a_axes a).

Lemma lookup_map ds d l : lookup d (map (merged ds) l) = option_map (fun v => if existsb (String.eqb d) ds then [fold_right Nat.add 0 v] else v) (lookup d l).
Proof.
  induction l as [|[k v] l IH]; [reflexivity|]. cbn [map]. unfold merged at 1. cbn [fst snd].
  destruct (existsb (String.eqb k) ds) eqn:E; cbn [lookup fst]; destruct (String.eqb_spec k d) as [->|N]; try exact IH; cbn [option_map]; rewrite E; reflexivity.
Qed.
Lemma lookup_in d l v : lookup d l = Some v -> In d (map fst l).
Proof. induction l as [|[k w] l IH]; [discriminate|]. cbn. destruct (String.eqb_spec k d) as [->|N]; [intros _; left; reflexivity|intro H; right; apply IH; exact H]. Qed.
Lemma chunk_sizes ds a a' : chunk ds a = Ok a' -> sizes a' = sizes a.
Proof.
  unfold chunk. destruct (forallb _ ds); [|discriminate]. intro H. injection H as <-. unfold sizes. cbn [a_axes]. rewrite map_map. apply map_ext. intros [k v]. unfold merged. cbn [fst snd].
  destruct (existsb (String.eqb k) ds); cbn; [rewrite Nat.add_0_r|]; reflexivity.
Qed.
Lemma multiple_some a d n : multiple a d = Some n <-> a_dask a = true /\ exists cs, lookup d (a_axes a) = Some cs /\ n = length cs /\ 1 < n.
Proof.
  unfold multiple, chunksizes. destruct (a_dask a); [|split; [discriminate|intros [H _]; discriminate]]. destruct (lookup d (a_axes a)) as [cs|].
  - destruct (Nat.ltb_spec 1 (length cs)) as [H|H]; split.
    + intro E. injection E as <-. split; [reflexivity|]. exists cs. auto.
    + intros (_ & cs' & E & -> & _). injection E as <-. reflexivity.
    + discriminate.
    + intros (_ & cs' & E & -> & L). injection E as <-. lia.
  - split; [discriminate|]. intros (_ & cs & E & _). discriminate.
Qed.
Lemma chunk_multiple ds a a' d n : chunk ds a = Ok a' -> multiple a' d = Some n -> ~ In d ds /\ (a_dask a = true -> multiple a d = Some n).
Proof.
  unfold chunk. destruct (forallb _ ds); [|discriminate]. intro H. injection H as <-. intro M. apply multiple_some in M. destruct M as (_ & cs & L & -> & G). cbn [a_axes] in L. rewrite lookup_map in L.
  destruct (lookup d (a_axes a)) as [v|] eqn:E; [|discriminate]. cbn in L. injection L as <-. destruct (existsb (String.eqb d) ds) eqn:X; [cbn in G; lia|]. split.
  - intro I. assert (T : existsb (String.eqb d) ds = true) by (apply existsb_exists; exists d; split; [exact I|apply String.eqb_refl]). congruence.
  - intro D. apply multiple_some. split; [exact D|]. exists v. auto.
Qed.
Lemma check_in name a d w : In w (check_dim name a d) <-> exists d0 n, d = Some d0 /\ multiple a d0 = Some n /\ w = (name, d0, n).
Proof.
  unfold check_dim. destruct d as [d|]; [|split; [intros []|intros (d0 & n & E & _); discriminate]]. destruct (multiple a d) as [n|] eqn:M; split.
  - intros [<-|[]]. exists d, n. auto.
  - intros (d0 & m & E & M' & ->). injection E as <-. left. congruence.
  - intros [].
  - intros (d0 & m & E & M' & ->). injection E as <-. congruence.
Qed.

(** The two checks on one array, with the rechunking. *)
Section One.
Variables (h : held) (name : string) (a : arr).
Let ws := check_dim name a (Some (h_x h)) ++ check_dim name a (h_y h).
Lemma ws_in w : In w ws <-> exists d n, spatial h d /\ multiple a d = Some n /\ w = (name, d, n).
Proof.
  unfold ws. rewrite in_app_iff, !check_in. unfold spatial. split.
  - intros [(d & n & E & M & ->)|(d & n & E & M & ->)]; exists d, n; (split; [|auto]); [left; congruence|right; exact E].
  - intros (d & n & [->|E] & M & ->); [left|right]; exists d || exists (h_x h); exists n; auto.
Qed.
Lemma one_ok : exists a', rechunk_if ws a = Ok a'.
Proof.
  unfold rechunk_if. destruct ws as [|w0 wr] eqn:E; [eexists; reflexivity|]. rewrite <- E. unfold chunk.
  destruct (forallb (fun d => existsb (String.eqb d) (map fst (a_axes a))) (dims_of ws)) eqn:F; [eexists; reflexivity|]. exfalso.
  assert (T : forallb (fun d => existsb (String.eqb d) (map fst (a_axes a))) (dims_of ws) = true); [|congruence].
  apply forallb_forall. intros d I. unfold dims_of in I. apply in_map_iff in I. destruct I as (w & <- & I). apply ws_in in I. destruct I as (d & n & _ & M & ->). cbn [fst snd].
  apply multiple_some in M. destruct M as (_ & cs & L & _). apply existsb_exists. exists d. split; [exact (lookup_in _ _ _ L)|apply String.eqb_refl].
Qed.
Lemma one_result a' : rechunk_if ws a = Ok a' -> sizes a' = sizes a /\ single_in_space h a' /\ other_chunks_kept h a a' /\ (a_dask a = true -> a_dask a' = true).
Proof.
  unfold rechunk_if. destruct ws as [|w0 wr] eqn:E.
  - intro H. injection H as <-. split; [reflexivity|]. split; [|split; [intros d _; reflexivity|auto]]. intros d S0. destruct (multiple a d) as [n|] eqn:M; [|reflexivity]. exfalso.
    assert (I : In (name, d, n) ws) by (apply ws_in; exists d, n; auto). rewrite E in I. destruct I.
  - rewrite <- E. intro H. split; [exact (chunk_sizes _ _ _ H)|].
    assert (D : a_dask a = true).
    { assert (I : In w0 ws) by (rewrite E; left; reflexivity). apply ws_in in I. destruct I as (d & n & _ & M & _). apply multiple_some in M. apply M. }
    split; [|split].
    + intros d S0. destruct (multiple a' d) as [n|] eqn:M; [|reflexivity]. exfalso. destruct (chunk_multiple _ _ _ _ _ H M) as [N M']. apply N. unfold dims_of. apply in_map_iff. exists (name, d, n). split; [reflexivity|]. apply ws_in. exists d, n. auto.
    + intros d S0. unfold chunk in H. destruct (forallb _ (dims_of ws)); [|discriminate]. injection H as <-. cbn [a_axes]. rewrite lookup_map.
      destruct (existsb (String.eqb d) (dims_of ws)) eqn:X; [|destruct (lookup d (a_axes a)); reflexivity]. exfalso. apply existsb_exists in X. destruct X as (d' & I & X). apply String.eqb_eq in X. subst d'.
      unfold dims_of in I. apply in_map_iff in I. destruct I as (w & Ed & I). apply ws_in in I. destruct I as (d' & n & Sp & _ & ->). cbn in Ed. subst d'. contradiction.
    + intros _. unfold chunk in H. destruct (forallb _ (dims_of ws)); [|discriminate]. injection H as <-. reflexivity.
Qed.
End One.

(** As claimed: inputs may be chunked in any way. It fails for coordinates with
    chunks of their own on structured grids, since both are rechunked along the
    dimensions of either; for neighbours that are not dask-backed; and for neighbours
    in several chunks, about which the user is told that they are rechunked. *)
Theorem C137_any_spatial_chunks_refuted :
  (exists h, multiple (h_lon h) (h_x h) <> None /\ validate_spatial_chunking h = Err (ValueErr "chunks keys")) /\
  (exists h nb ar p, validate_spatial_chunking h = Ok p /\ a_dask nb = false /\ mesh_chunks h nb ar = Err (AttributeErr "compute")) /\
  (exists h nb ar p, validate_spatial_chunking h = Ok p /\ validate_unstructured_chunking (h_x h) nb ar <> [] /\ mesh_chunks h nb ar = Err (ValueErr "core dimension")).
Proof.
  split; [|split].
  - exists (mkHeld (mkArr true [("time", [2;2]); ("y", [3]); ("x", [4])]) (mkArr true [("y", [3]); ("x", [4])]) (mkArr true [("x", [2;2])]) (mkArr true [("y", [3])]) "x" (Some "y"))%string.
    split; [discriminate|reflexivity].
  - exists (mkHeld (mkArr true [("time", [2;2]); ("cell", [4])]) (mkArr false [("cell", [4])]) (mkArr false [("cell", [4])]) (mkArr false [("cell", [4])]) "cell" None)%string,
      (mkArr false [("nv", [3]); ("cell", [4])])%string, (mkArr true [("cell", [4])])%string. eexists. split; [reflexivity|]. split; reflexivity.
  - exists (mkHeld (mkArr true [("time", [2;2]); ("cell", [4])]) (mkArr false [("cell", [4])]) (mkArr false [("cell", [4])]) (mkArr false [("cell", [4])]) "cell" None)%string,
      (mkArr true [("nv", [3]); ("cell", [2;2])])%string, (mkArr true [("cell", [4])])%string. eexists. split; [reflexivity|]. split; [discriminate|reflexivity].
Qed.
Print Assumptions C137_any_spatial_chunks_refuted.

(** If the longitudes along x and the latitudes along y are in one chunk each (or
    not dask-backed), every chunking of data and mask is accepted. The result has the
    same sizes, one chunk in each spatial dimension, the chunks in time unchanged, and
    there is a warning for each array and spatial dimension in several chunks and for
    nothing else. *)
Theorem C137_any_spatial_chunks_partial (h : held) :
  multiple (h_lon h) (h_x h) = None -> (forall y, h_y h = Some y -> multiple (h_lat h) y = None) ->
  exists h' ws, validate_spatial_chunking h = Ok (h', ws) /\
    h_lon h' = h_lon h /\ h_lat h' = h_lat h /\ h_x h' = h_x h /\ h_y h' = h_y h /\
    (forall old new, (old = h_data h /\ new = h_data h') \/ (old = h_mask h /\ new = h_mask h') ->
       sizes new = sizes old /\ single_in_space h new /\ other_chunks_kept h old new /\ (a_dask old = true -> a_dask new = true)) /\
    (forall name d n, In (name, d, n) ws <->
       spatial h d /\ ((name = "data_bin" /\ multiple (h_data h) d = Some n) \/ (name = "mask" /\ multiple (h_mask h) d = Some n))%string).
Proof.
  intros Lo La. destruct (one_ok h "data_bin" (h_data h)) as (d' & Ed). destruct (one_ok h "mask" (h_mask h)) as (m' & Em).
  unfold validate_spatial_chunking. rewrite Ed. cbn [bind]. rewrite Em. cbn [bind].
  assert (Wc : check_dim "lon" (h_lon h) (Some (h_x h)) ++ check_dim "lat" (h_lat h) (h_y h) = []).
  { unfold check_dim. rewrite Lo. destruct (h_y h) as [y|]; [rewrite (La y eq_refl)|]; reflexivity. }
  rewrite Wc. cbn [rechunk_if bind]. eexists. eexists. split; [reflexivity|]. cbn [h_lon h_lat h_x h_y h_data h_mask]. do 4 (split; [reflexivity|]). split.
  - intros old new [[-> ->]|[-> ->]]; [exact (one_result h _ _ _ Ed)|exact (one_result h _ _ _ Em)].
  - intros name d n. rewrite app_nil_r, in_app_iff, !ws_in. split.
    + intros [(d0 & n0 & S0 & M & E)|(d0 & n0 & S0 & M & E)]; injection E as -> -> ->; auto.
    + intros (S0 & [[-> M]|[-> M]]); [left|right]; exists d, n; auto.
Qed.
Print Assumptions C137_any_spatial_chunks_partial.

(** On meshes: with dask-backed neighbours in one chunk construction and the first
    labelling are not stopped by any chunking of data and mask. *)
Theorem C137_mesh_chunks_partial (h : held) (nb ar : arr) :
  h_y h = None -> multiple (h_lon h) (h_x h) = None -> a_dask nb = true -> core_ok nb ["nv"%string; h_x h] = true ->
  (forall cs, In (h_x h, cs) (a_axes (h_data h)) -> cs <> []) ->
  exists h' ws, mesh_chunks h nb ar = Ok (h', ws) /\ single_in_space h (h_data h') /\
    (forall name d n, In (name, d, n) ws <->
       (name = "data_bin" /\ d = h_x h /\ multiple (h_data h) d = Some n) \/ (name = "mask" /\ d = h_x h /\ multiple (h_mask h) d = Some n) \/
       (name = "neighbours" /\ (d = h_x h \/ d = "nv") /\ multiple nb d = Some n) \/ (name = "cell_areas" /\ d = h_x h /\ multiple ar d = Some n))%string.
Proof.
  intros Hy Lo Dk Co Ne. destruct (C137_any_spatial_chunks_partial h Lo) as (h' & ws & E & _ & _ & _ & _ & P & Wn); [intros y Y; congruence|].
  assert (Wa : forall name d n, In (name, d, n) (ws ++ validate_unstructured_chunking (h_x h) nb ar) <->
       ((name = "data_bin" /\ d = h_x h /\ multiple (h_data h) d = Some n) \/ (name = "mask" /\ d = h_x h /\ multiple (h_mask h) d = Some n) \/
       (name = "neighbours" /\ (d = h_x h \/ d = "nv") /\ multiple nb d = Some n) \/ (name = "cell_areas" /\ d = h_x h /\ multiple ar d = Some n))%string).
  { intros name d n. assert (Cd : forall nm a x, In (name, d, n) (check_dim nm a (Some x)) <-> name = nm /\ d = x /\ multiple a d = Some n).
    { intros nm a x. unfold check_dim. destruct (multiple a x) as [k|] eqn:M; cbn [In].
      - split; [intros [Q|[]]; injection Q as <- <- <-; auto|]. intros (-> & -> & Q). left. congruence.
      - split; [intros []|]. intros (-> & -> & Q). congruence. }
    unfold validate_unstructured_chunking. rewrite !in_app_iff, Wn, !Cd. unfold spatial. rewrite Hy. intuition (try congruence; subst; auto). }
  destruct (P (h_data h) (h_data h') (or_introl (conj eq_refl eq_refl))) as (Sz & Si & _ & _).
  unfold mesh_chunks. rewrite E. cbn [bind fst snd]. unfold build_matrix. rewrite Dk. cbn [bind]. unfold identify_chunks. rewrite Co, andb_true_r.
  enough (Cd : core_ok (h_data h') [h_x h] = true) by (rewrite Cd; cbn [bind]; eexists; eexists; split; [reflexivity|split; [exact Si|exact Wa]]).
  unfold core_ok. cbn [forallb]. rewrite andb_true_r. assert (M := Si (h_x h) (or_introl eq_refl)). unfold multiple in M. destruct (chunksizes (h_data h') (h_x h)) as [cs|] eqn:C; [|reflexivity].
  destruct (Nat.ltb_spec 1 (length cs)) as [G|G]; [discriminate|]. apply Nat.eqb_eq. enough (length cs <> 0) by lia. intro Z0. destruct cs as [|c0 cs]; [|discriminate].
  (* the chunks of the result along x are those given, or one *)
  destruct (one_ok h "data_bin" (h_data h)) as (d' & Ed). assert (Hd : h_data h' = d').
  { unfold validate_spatial_chunking in E. rewrite Ed in E. cbn [bind] in E. destruct (rechunk_if _ (h_mask h)); [|discriminate]. cbn [bind] in E. destruct (rechunk_if _ (h_lat h)); [|discriminate]. cbn [bind] in E.
    destruct (rechunk_if _ (h_lon h)); [|discriminate]. cbn [bind] in E. injection E as <- _. reflexivity. }
  rewrite Hd in C. unfold chunksizes in C. destruct (a_dask d'); [|discriminate].
  assert (Lk : forall l, lookup (h_x h) l = Some [] -> In (h_x h, []) l).
  { induction l as [|[k v] l IH]; [discriminate|]. cbn. destruct (String.eqb_spec k (h_x h)) as [->|N]; [intro Q; injection Q as ->; left; reflexivity|intro Q; right; apply IH; exact Q]. }
  unfold rechunk_if in Ed. destruct (check_dim "data_bin" (h_data h) (Some (h_x h)) ++ check_dim "data_bin" (h_data h) (h_y h)) as [|w wr] eqn:W.
  - injection Ed as <-. apply (Ne []); [apply Lk; exact C|reflexivity].
  - rewrite <- W in Ed. unfold chunk in Ed. destruct (forallb _ _); [|discriminate]. injection Ed as <-. cbn [a_axes] in C. rewrite lookup_map in C. destruct (lookup (h_x h) (a_axes (h_data h))) as [v|] eqn:Lv; [|discriminate].
    cbn in C. destruct (existsb _ _) in C; [discriminate|]. injection C as ->. apply (Ne []); [apply Lk; exact Lv|reflexivity].
Qed.
Print Assumptions C137_mesh_chunks_partial.

(** Data in 2 x 2 spatial chunks, a mask not dask-backed. *)
Example C137_case :
  let h := (mkHeld (mkArr true [("time", [2;2]); ("y", [2;1]); ("x", [2;2])]) (mkArr false [("y", [3]); ("x", [4])]) (mkArr false [("x", [4])]) (mkArr false [("y", [3])]) "x" (Some "y"))%string in
  validate_spatial_chunking h = Ok (mkHeld (mkArr true [("time", [2;2]); ("y", [3]); ("x", [4])]) (h_mask h) (h_lon h) (h_lat h) "x" (Some "y"), [("data_bin", "x", 2); ("data_bin", "y", 2)])%string.
Proof. reflexivity. Qed.
Example C137_mesh_case :
  let h := (mkHeld (mkArr true [("time", [2;2]); ("cell", [2;2])]) (mkArr false [("cell", [4])]) (mkArr false [("cell", [4])]) (mkArr false [("cell", [4])]) "cell" None)%string in
  exists ws, mesh_chunks h (mkArr true [("nv", [3]); ("cell", [4])])%string (mkArr true [("cell", [2;2])])%string = Ok (mkHeld (mkArr true [("time", [2;2]); ("cell", [4])]) (h_mask h) (h_lon h) (h_lat h) "cell" None, ws)%string /\ length ws = 2.
Proof. eexists. split; reflexivity. Qed.
