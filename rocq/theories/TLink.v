(** * Theorems C60: what an insertion changes *)
From Verif Require Import Base BaseFacts MSliceVec MIndexIo MSearch PHeap PSearch MBuild SBuild PSelect PRow PSLite PBuildInv PBuildRun PBuildLayer PBuilder PHistory PBuildAny TBuild SLink PLink.

(** One insertion, run by itself from start to end into any well-formed layer:
    a zero element changes nothing; an element most of whose chosen neighbours
    are duplicates of it changes nothing; otherwise it is linked with exactly the
    chosen neighbours, in both directions, and no other list changes. *)
Theorem C60_insertion_links :
  forall {S E} (V : benv S E) s w nn ms prev rows idx sched rows',
    usable V s -> sorts_by_dist (e_sort V) -> (N.of_nat (c_len (e_ops V) s) < UNUSED)%N ->
    length rows <= c_len (e_ops V) s -> layers_wf nn (length rows) prev -> rows_wf w (length rows) rows ->
    idx < length rows -> 0 < nn <= w -> 0 < ms ->
    run V s nn ms prev sched (rows, [(idx, TStart)]) = Ok (rows', [(idx, TDone)]) ->
    (is_zero V s idx /\ rows' = rows) \/
    (~ is_zero V s idx /\ exists chosen, chosen_for V s nn ms prev rows idx chosen /\
       ((mostly_duplicates V nn chosen /\ rows' = rows) \/
        (~ mostly_duplicates V nn chosen /\ rows_linked V s w rows idx chosen rows'))).
Proof.
  intros S E V s w nn ms prev rows idx sched rows' [Hc Hfu] Hsort Hlen Hn Hprev Hrows Hidx Hnn Hms Er.
  destruct (layers_wf_chain Hn Hprev) as (R & HR & Hl).
  pose proof (@hprev_of _ _ V s Hc ltac:(lia) false nn prev R (length rows) HR Hl Hn Hfu) as Hp.
  eapply (@insertion_links _ _ V s Hc Hsort ltac:(lia) w (length rows) Hn nn ms prev Hnn Hms); eauto.
  intros i e Hi He. destruct (Hp i e Hi He) as (r & Hr & Hx). exists r. split; auto. intros x Hin.
  destruct (Hx x Hin) as [H1 _]. split; auto. discriminate.
Qed.
Print Assumptions C60_insertion_links.

(** Its consequences for a user: after an insertion that links, the element's own
    list is not empty if any neighbour was chosen, and every chosen neighbour whose
    list was not full lists the element. *)
Theorem C60_room_means_linked :
  forall {S E} (V : benv S E) s w rows idx chosen rows' i d r,
    rows_linked V s w rows idx chosen rows' -> In (i, d) chosen -> nth_error rows i = Some r ->
    length (row_ids r) < w ->
    exists r', nth_error rows' i = Some r' /\ In idx (row_ids r') /\ incl (row_ids r) (row_ids r').
Proof.
  intros S E V s w rows idx chosen rows' i d r [_ H] Hin Hr Hl. destruct (H i r Hr) as (r' & Hr' & _ & _ & _ & Hlk & _).
  exists r'. split; auto. destruct (Hlk d Hin) as [Hj|Hj _|ds cands sel Hj Hw]; [|split|lia].
  - split; auto. apply incl_refl.
  - apply in_or_app. right; left; auto.
  - apply incl_appl, incl_refl.
Qed.
Print Assumptions C60_room_means_linked.

(** In every history of a builder, at every moment of every pass, under every
    schedule: one step leaves every list as it is, or gives a node without
    neighbours its first ones, or links one node to one list. *)
Theorem C60_every_step_only_links :
  forall {S E I} (V : benv S E) (cpush : S -> I -> outcome S) b w nn ms prev x k x' i r,
    sorts_by_dist (e_sort V) -> push_law (e_ops V) cpush -> reached V cpush b ->
    mid_run V b w nn ms prev x ->
    sys_step V (b_elems b) nn ms prev x k = Ok x' -> nth_error (fst x) i = Some r ->
    exists r', nth_error (fst x') i = Some r' /\ row_changes V (b_elems b) w i r r'.
Proof.
  intros S E I V cpush b w nn ms prev x k x' i r Hsort Hpush Hr Hm Es Hi.
  destruct (reached_fine Hsort Hpush Hr) as [HB _].
  destruct (mid_run_inv Hsort HB Hm) as (Hnn & Hms & n & B & Hn & HI). destruct x as [rows ts].
  destruct HB as (_ & [Hc Hlen Hfu] & _).
  eapply (@step_links _ _ V (b_elems b) Hc Hsort Hlen w n Hn nn ms prev Hnn Hms B rows ts k x' HI Es i r Hi).
Qed.
Print Assumptions C60_every_step_only_links.

(** So no link is ever lost except from a list that is full. *)
Theorem C60_links_lost_only_from_full_lists :
  forall {S E I} (V : benv S E) (cpush : S -> I -> outcome S) b w nn ms prev x k x' i r r' y,
    sorts_by_dist (e_sort V) -> push_law (e_ops V) cpush -> reached V cpush b ->
    mid_run V b w nn ms prev x ->
    sys_step V (b_elems b) nn ms prev x k = Ok x' ->
    nth_error (fst x) i = Some r -> nth_error (fst x') i = Some r' ->
    In y (row_ids r) -> ~ In y (row_ids r') -> length (row_ids r) = w.
Proof.
  intros S E I V cpush b w nn ms prev x k x' i r r' y Hsort Hpush Hr Hm Es Hi Hi' Hy Hny.
  destruct (C60_every_step_only_links V cpush b w nn ms prev x k x' i r Hsort Hpush Hr Hm Es Hi) as (r1 & Hr1 & Hch).
  rewrite Hi' in Hr1. injection Hr1 as <-. destruct Hch as [->|H0|j d Hlk].
  - contradiction.
  - rewrite H0 in Hy. destruct Hy.
  - destruct Hlk as [Hj|Hj Hl|ds cands sel Hj Hw]; auto; exfalso; apply Hny; auto. apply in_or_app; auto.
Qed.
Print Assumptions C60_links_lost_only_from_full_lists.

(** ** A concrete case *)
(** five elements on a line (distances 10 times the difference, threshold 5),
    lists of at most two neighbours *)
Definition lk_elems : list Z := [1; 2; 3; 7; 8]%Z.
Definition lk_rows : list (list N) :=
  [[1; 2]; [0; 2]; [0; 1]; [UNUSED; UNUSED]; [UNUSED; UNUSED]]%N.

(** element 3 gets the nearest two as neighbours; they are full, so their lists
    are selected anew *)
Example C60_links_example :
  exists rows', run (ex_env Release) lk_elems 2 2 [] (repeat 0 40) (lk_rows, [(3, TStart)]) = Ok (rows', [(3, TDone)]) /\
    map (@row_ids) rows' <> map (@row_ids) lk_rows /\
    (exists r, nth_error rows' 3 = Some r /\ row_ids r <> []) /\
    usable (ex_env Release) lk_elems /\ rows_wf 2 5 lk_rows /\ layers_wf 2 5 [] /\ ~ is_zero (ex_env Release) lk_elems 3.
Proof.
  eexists. split; [vm_compute; reflexivity|]. split; [vm_compute; discriminate|].
  split; [eexists; split; [reflexivity|vm_compute; discriminate]|].
  split; [apply ex_usable; cbn; lia|]. split.
  - split; [reflexivity|]. intros i r Hr.
    exists (match i with 0 => [1; 2] | 1 => [0; 2] | 2 => [0; 1] | _ => [] end).
    do 5 (destruct i as [|i]; [cbn in Hr; injection Hr as <-; split; [split; [cbn; lia|reflexivity]|
      split; [cbn; intuition lia|repeat (constructor; try lia)]]|]).
    destruct i; discriminate.
  - split; [split; constructor|]. intros (d & Ed & Hd). vm_compute in Ed. injection Ed as <-. vm_compute in Hd. discriminate.
Qed.
