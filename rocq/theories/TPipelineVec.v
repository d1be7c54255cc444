(** * Theorems C66, for collections of vectors: from pushing to searching what
    was saved and loaded *)
From Coq Require Import ZArith Reals Lia.
From Flocq Require Import Core IEEE754.BinarySingleNaN.
From Verif Require Import Base BaseFacts Bytes PBytes MSliceVec SSliceVec PFixed MIndexIo SIndexIo PIndexCrash MSearch SSearch MBuild SBuild MReorder MFloat MFloatBits MAngular SAngular.
From Verif Require Import PF32 PCode PAngInt PAng PDense PDenseHist PBuilder PHistory PPipelineB TSlice TBuild TAngular TVectors TPipeline.
Close Scope R_scope. Close Scope Z_scope.
Open Scope nat_scope.

(** A search gives [res]: at most [nn] and at most [ms] results, closest first, no
    id twice, each with the distance of the vector with that id to the query;
    there is a result if there are vectors. *)
Definition answers {T} (dist : list T -> list T -> outcome Z) (vectors : list (list T)) (query : list T) (ms nn : nat) (res : list (nat * Z)) : Prop :=
  length res <= Nat.min nn ms /\ StronglySorted closer res /\ NoDup (map fst res) /\
  (forall i d, In (i, d) res -> exists x, nth_error vectors i = Some x /\ dist x query = Ok d) /\
  (0 < length vectors -> 0 < nn -> res <> []).

Lemma inv_new {T} (V : benv (fw T) (list T)) (dist : list T -> list T -> outcome Z) m w (good : list T -> Prop) cfg rows v b0 :
  e_ops V = vectors_ops m dist -> 0 < w ->
  (forall x y, length x = w -> length y = w -> good x -> good y -> exists d, dist x y = Ok d) ->
  cfg_ok cfg -> holds w rows v -> Forall good rows -> length rows < e_fuel V ->
  builder_new V cfg v = Ok b0 -> inv V w good rows b0.
Proof.
  intros HV Hw Hgood Hcfg Hh Hg Hf E0.
  assert (Eb : b0 = mkBuilder v [] cfg).
  { unfold builder_new in E0. destruct (oassert _); [|discriminate]. cbn [obind] in E0. apply ok_inj in E0. auto. }
  subst b0. split; [|split; [exact Hh|split; [exact Hg|cbn; lia]]].
  eapply r_new; [exact Hcfg| |exact E0]. eapply holds_usable; eauto.
Qed.

Lemma dense_pipeline {T} (V : benv (fw T) (list T)) (dist : list T -> list T -> outcome Z) m w (good : list T -> Prop) (R : repr T) valid
  cfg rows v cs b0 b y fuel ms nn :
  e_ops V = vectors_ops m dist -> e_mode V = Release -> sorts_by_dist (e_sort V) -> 0 < w -> fits64 w ->
  (forall x y, length x = w -> length y = w -> good x -> good y -> exists d, dist x y = Ok d) ->
  repr_ok R valid -> (forall x, good x -> Forall valid x) ->
  cfg_ok cfg -> holds w rows v -> Forall good rows -> Forall (good_call w good) cs ->
  length rows + length (pushed cs) < e_fuel V -> (N.of_nat (length rows + length (pushed cs)) < 4294967295)%N ->
  builder_new V cfg v = Ok b0 -> history V (@fw_push T) b0 cs = Ok b ->
  length y = w -> good y -> 0 < ms -> length rows + length (pushed cs) < fuel ->
  let vectors := rows ++ pushed cs in
  exists res, granne_search m fuel (FixWidth (b_layers b)) (fun i => c_dte (vectors_ops m dist) (b_elems b) i y) ms nn = Ok res /\
    answers dist (firstn (builder_len b) vectors) y ms nn res /\
    (vectors <> [] -> k_nn (b_config b) <= 254 -> length (b_layers b) <= 25 -> forall c,
       exists c' L' v', write_index m (FixWidth (b_layers b)) c = Ok c' /\
         load_layers (skipn (cpos c) (cbuf c')) = Ok L' /\
         fw_from_bytes R (fst (fw_write R (b_elems b))) = Ok v' /\
         granne_search m fuel L' (fun i => c_dte (vectors_ops m dist) v' i y) ms nn = Ok res).
Proof.
  intros HV Hrel Hs Hw Hw64 Hgood HR Hval Hcfg Hh Hg Hcs Hf Hn E0 Eh Hy Gy Hms Hfu vectors.
  pose proof (inv_new V dist m w good cfg rows v b0 HV Hw Hgood Hcfg Hh Hg ltac:(lia) E0) as Hi0.
  pose proof (@inv_hist T dist m V HV Hrel Hs w good Hw Hgood cs rows b0 Hi0 Hcs Hf Hn) as Hi. rewrite Eh in Hi.
  fold vectors in Hi. destruct Hi as (Hr & Hhb & Hgb & Hlb).
  assert (HLv : length vectors = length rows + length (pushed cs)) by (unfold vectors; apply app_length).
  pose proof (@plaw T dist m V HV) as Hp.
  set (dy := fun i => c_dte (vectors_ops m dist) (b_elems b) i y).
  set (f := fun i => match dy i with Ok d => d | Fail _ => 0%Z end).
  assert (Hdy : forall i x, nth_error vectors i = Some x -> dy i = dist x y /\ exists d, dist x y = Ok d).
  { intros i x Hx. destruct Hhb as [Hhb|[E1 _]]; [|rewrite E1 in Hx; destruct i; discriminate].
    split; [unfold dy; cbn [vectors_ops c_dte]; rewrite (@fw_is_get T m w vectors (b_elems b) i x Hw Hhb Hx); reflexivity|].
    apply Hgood; auto; [destruct Hhb as (_ & _ & F); rewrite Forall_forall in F; apply F; eapply nth_error_In; eauto|].
    rewrite Forall_forall in Hgb. apply Hgb. eapply nth_error_In; eauto. }
  assert (Hd : dist_is dy f (builder_len b)).
  { intros i Hi. destruct (nth_error vectors i) as [x|] eqn:Ex; [|apply nth_error_None in Ex; lia].
    destruct (Hdy i x Ex) as (E1 & d & E2). unfold f. rewrite E1, E2. reflexivity. }
  assert (Hfb : builder_len b < fuel) by lia.
  destruct (reached_search V _ b m dy f fuel ms nn Hs Hp Hr Hd Hfb Hms) as (res & Er & H1 & H2 & H3 & H4 & H5).
  exists res. split; [exact Er|]. split.
  { split; [exact H1|]. split; [exact H2|]. split; [exact H3|]. split.
    - intros i d Hin. destruct (H4 i d Hin) as [Hi Ed]. destruct (nth_error vectors i) as [x|] eqn:Ex; [|apply nth_error_None in Ex; lia].
      exists x. split; [|destruct (Hdy i x Ex) as [E1 _]; congruence].
      assert (Hfn : forall (l : list (list T)) k q, q < k -> nth_error (firstn k l) q = nth_error l q).
      { clear. induction l as [|a l IH]; intros [|k] [|q] H; cbn; auto; try lia. apply IH. lia. }
      rewrite Hfn; auto.
    - intros Hl. apply H5. rewrite firstn_length in Hl. lia. }
  intros Hne Hk Hl25 c.
  destruct (reached_save V _ b m c Hs Hp Hr Hk Hl25) as (c' & L' & Ew & El & _ & Hsame).
  destruct Hhb as [Hhb|[E1 _]]; [|contradiction].
  destruct (C10_vectors_round_trip T R valid HR w vectors (b_elems b) Hw Hw64 Hhb) as (v' & Ev & _ & Ev2).
  { destruct Hhb as (_ & -> & _). apply Forall_concat. eapply Forall_impl; [|exact Hgb]. exact Hval. }
  exists c', L', v'. split; [exact Ew|]. split; [exact El|]. split; [exact Ev|]. subst v'.
  rewrite <- Er. exact (Hsame dy f fuel ms nn Hd Hfb).
Qed.

(** int8: whatever vectors of one dimension are given, pushed and indexed in
    whatever order, a search answers; and after saving index and vectors and
    loading both, it gives the same answer. *)
Theorem C66_int8_pipeline :
  forall V cfg w rows v cs b0 b y fuel ms nn,
    e_ops V = angular_int_ops Release -> e_mode V = Release -> sorts_by_dist (e_sort V) ->
    cfg_ok cfg -> (0 < Z.of_nat w <= 131071)%Z -> holds w rows v -> Forall i8s rows -> Forall (good_call w i8s) cs ->
    length rows + length (pushed cs) < e_fuel V -> (N.of_nat (length rows + length (pushed cs)) < 4294967295)%N ->
    builder_new V cfg v = Ok b0 -> history V (@fw_push Z) b0 cs = Ok b ->
    length y = w -> i8s y -> 0 < ms -> length rows + length (pushed cs) < fuel ->
    let vectors := rows ++ pushed cs in
    exists res, granne_search Release fuel (FixWidth (b_layers b)) (fun i => c_dte (angular_int_ops Release) (b_elems b) i y) ms nn = Ok res /\
      answers (fun x y => coded (angular_int_dist Release x y)) (firstn (builder_len b) vectors) y ms nn res /\
      (vectors <> [] -> k_nn (b_config b) <= 254 -> length (b_layers b) <= 25 -> forall c,
         exists c' L' v', write_index Release (FixWidth (b_layers b)) c = Ok c' /\
           load_layers (skipn (cpos c) (cbuf c')) = Ok L' /\
           fw_from_bytes i8r (fst (fw_write i8r (b_elems b))) = Ok v' /\
           granne_search Release fuel L' (fun i => c_dte (angular_int_ops Release) v' i y) ms nn = Ok res).
Proof.
  intros V cfg w rows v cs b0 b y fuel ms nn HV Hrel Hs Hcfg Hw Hh Hg Hcs Hf Hn E0 Eh Hy Gy Hms Hfu.
  apply (dense_pipeline V (fun x y => coded (angular_int_dist Release x y)) Release w i8s i8r (fun z => (-128 <= z < 128)%Z) cfg rows v cs b0 b y fuel ms nn); auto.
  - lia.
  - unfold fits64. lia.
  - intros x z Hx Hz Gx Gz. destruct (@kernel_ok Release x z Gx Gz ltac:(congruence) ltac:(lia)) as (E & _).
    destruct (angular_int_ok E) as [d Ed]. exists (f32_code d). rewrite Ed. reflexivity.
  - apply i8r_ok.
  - intros x Gx. eapply Forall_impl; [|exact Gx]. cbn beta. intros z Hz. lia.
Qed.
Print Assumptions C66_int8_pipeline.

(** f32: the same, for the vectors that [Vector::from] makes. *)
Theorem C66_f32_pipeline :
  forall V cfg w rows v cs b0 b y fuel ms nn,
    e_ops V = angular_ops Release -> e_mode V = Release -> sorts_by_dist (e_sort V) ->
    cfg_ok cfg -> 0 < w -> (Z.of_nat (rounds w) <= 10000)%Z -> holds w rows v -> Forall unit_or_zero rows ->
    Forall (good_call w unit_or_zero) cs ->
    length rows + length (pushed cs) < e_fuel V -> (N.of_nat (length rows + length (pushed cs)) < 4294967295)%N ->
    builder_new V cfg v = Ok b0 -> history V (@fw_push f32) b0 cs = Ok b ->
    length y = w -> unit_or_zero y -> 0 < ms -> length rows + length (pushed cs) < fuel ->
    let vectors := rows ++ pushed cs in
    exists res, granne_search Release fuel (FixWidth (b_layers b)) (fun i => c_dte (angular_ops Release) (b_elems b) i y) ms nn = Ok res /\
      answers (fun x y => coded (angular_dist x y)) (firstn (builder_len b) vectors) y ms nn res /\
      (vectors <> [] -> k_nn (b_config b) <= 254 -> length (b_layers b) <= 25 -> forall c,
         exists c' L' v', write_index Release (FixWidth (b_layers b)) c = Ok c' /\
           load_layers (skipn (cpos c) (cbuf c')) = Ok L' /\
           fw_from_bytes f32r (fst (fw_write f32r (b_elems b))) = Ok v' /\
           granne_search Release fuel L' (fun i => c_dte (angular_ops Release) v' i y) ms nn = Ok res).
Proof.
  intros V cfg w rows v cs b0 b y fuel ms nn HV Hrel Hs Hcfg Hw Hk Hh Hg Hcs Hf Hn E0 Eh Hy Gy Hms Hfu.
  apply (dense_pipeline V (fun x y => coded (angular_dist x y)) Release w unit_or_zero f32r (fun _ => True) cfg rows v cs b0 b y fuel ms nn); auto.
  - unfold fits64, rounds in *. pose proof (Nat.div_mod w 32 ltac:(lia)). pose proof (Nat.mod_upper_bound w 32 ltac:(lia)).
    set (q := w / 32) in *. set (r := w mod 32) in *. clearbody q r. lia.
  - intros x z Hx Hz Gx Gz. eapply uz_dist; eauto.
  - apply f32r_ok.
  - intros x _. apply Forall_forall. auto.
Qed.
Print Assumptions C66_f32_pipeline.

(** five int8 vectors, built in two steps: the search of the index, of the saved
    and loaded index, and the distances *)
Example C66_vectors_nonvacuous :
  (let* b := history int8_env (@fw_push Z) (mkBuilder (mkFw (concat axes) 2) [] ex_cfg) more in
   let query v i := c_dte (angular_int_ops Release) v i [-90; 1]%Z in
   let* r := granne_search Release 20 (FixWidth (b_layers b)) (query (b_elems b)) 3 2 in
   let* c := write_index Release (FixWidth (b_layers b)) (mkCursor [] 0) in
   let* L := load_layers (cbuf c) in
   let* v := fw_from_bytes i8r (fst (fw_write i8r (b_elems b))) in
   let* r' := granne_search Release 20 L (query v) 3 2 in
   Ok (length (b_layers b), builder_len b, map fst r, map fst r', fdata v)) =
    Ok (3, 5, [4; 3], [4; 3], concat axes ++ [-3; 127; -100; 5]%Z).
Proof. vm_compute. reflexivity. Qed.
