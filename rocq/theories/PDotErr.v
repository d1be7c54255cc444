(** * Rounding error of the dot product kernel *)
From Coq Require Import ZArith Reals Lra Lia Psatz.
From Flocq Require Import Core Relative IEEE754.BinarySingleNaN.
From Verif Require Import Base BaseFacts MFloat MAngular SAngular PF32 PDot.
Close Scope R_scope.
Open Scope nat_scope.
Set Implicit Arguments. Unset Strict Implicit.

(** ** The kernel commutes with homomorphisms *)
Section Hom.
  Context {F G : Type} (fma : F -> F -> F -> F) (add : F -> F -> F) (zero : F)
          (fma' : G -> G -> G -> G) (add' : G -> G -> G) (zero' : G) (h : F -> G).
  Hypothesis Hfma : forall a b c, h (fma a b c) = fma' (h a) (h b) (h c).
  Hypothesis Hadd : forall a b, h (add a b) = add' (h a) (h b).
  Hypothesis Hzero : h zero = zero'.

  Lemma hom_lanes ch a b : map h (lanes_step fma ch (a, b)) = lanes_step fma' (map h ch) (map h a, map h b).
  Proof.
    unfold lanes_step. cbn [fst snd]. revert b ch; induction a as [|x a IH]; intros [|y b] [|c ch]; cbn; auto.
    rewrite Hfma. f_equal. apply IH.
  Qed.
  Lemma hom_lanes_fold ps : forall ch, map h (fold_left (lanes_step fma) ps ch) =
    fold_left (lanes_step fma') (map (fun p => (map h (fst p), map h (snd p))) ps) (map h ch).
  Proof. induction ps as [|[a b] ps IH]; intros ch; cbn [fold_left map fst snd]; auto. now rewrite IH, hom_lanes. Qed.
  Lemma hom_add l : forall r, h (fold_left add l r) = fold_left add' (map h l) (h r).
  Proof. induction l as [|x l IH]; intros r; cbn; auto. now rewrite IH, Hadd. Qed.
  Lemma hom_fma ps : forall r, h (fold_left (fun r ab => fma (fst ab) (snd ab) r) ps r) =
    fold_left (fun r ab => fma' (fst ab) (snd ab) r) (map (fun p => (h (fst p), h (snd p))) ps) (h r).
  Proof. induction ps as [|[a b] ps IH]; intros r; cbn [fold_left map fst snd]; auto. now rewrite IH, Hfma. Qed.
  Lemma hom_combine {A B A' B'} (f : A -> A') (g : B -> B') x : forall y,
    map (fun p => (f (fst p), g (snd p))) (combine x y) = combine (map f x) (map g y).
  Proof. induction x as [|a x IH]; intros [|b y]; cbn; auto. now rewrite IH. Qed.
  Lemma hom_chunks k n : forall x, map (map h) (chunks_exact_n k n x) = chunks_exact_n k n (map h x).
  Proof. induction k as [|k IH]; intros x; cbn; auto. now rewrite IH, firstn_map, skipn_map. Qed.

  Lemma map_rep a k : map h (repeat a k) = repeat (h a) k.
  Proof. induction k as [|k IH]; cbn; auto. now rewrite IH. Qed.

  Lemma dot_hom x y : h (dot_product fma add zero x y) = dot_product fma' add' zero' (map h x) (map h y).
  Proof.
    unfold dot_product. rewrite hom_fma, hom_add, hom_lanes_fold, Hzero.
    rewrite !hom_combine, map_rep, Hzero. unfold chunks_exact, remainder. rewrite !hom_chunks, !map_length, !skipn_map. reflexivity.
  Qed.
End Hom.

(** ** One operation *)
Open Scope R_scope.
Definition eta32 : R := / 2 * bpow radix2 (-149).
Lemma eta32_pos : 0 < eta32.
Proof. unfold eta32. pose proof (bpow_gt_0 radix2 (-149)). lra. Qed.
Definition pw (k : nat) : R := (1 + u32) ^ k.
Lemma pw_ge1 k : 1 <= pw k.
Proof. unfold pw. apply pow_R1_Rle. pose proof u32_pos. lra. Qed.
Lemma pw_S k : pw (Datatypes.S k) = (1 + u32) * pw k. Proof. reflexivity. Qed.
Lemma pw_mono j k : (j <= k)%nat -> pw j <= pw k.
Proof. intros H. apply Rle_pow; auto. pose proof u32_pos. lra. Qed.
Lemma pw_bound k : pw k * (1 - INR k * u32) <= 1.
Proof.
  induction k as [|k IH]; [cbn; lra|]. rewrite pw_S, S_INR. pose proof u32_pos as Hu. pose proof (pw_ge1 k). pose proof (pos_INR k).
  assert (0 <= pw k * (u32 * u32 * (INR k + 1))).
  { apply Rmult_le_pos; [lra|]. apply Rmult_le_pos; [|lra]. apply Rmult_le_pos; lra. }
  replace ((1 + u32) * pw k * (1 - (INR k + 1) * u32)) with (pw k * (1 - INR k * u32) - pw k * (u32 * u32 * (INR k + 1))) by ring. lra.
Qed.

(** a float [fst], the exact value and the sum of the magnitudes of its parts *)
Notation T3 := (f32 * R * R)%type.
Definition fl (t : T3) : f32 := fst (fst t).
Definition ex (t : T3) : R := snd (fst t).
Definition mg (t : T3) : R := snd t.

(** reached with at most [k] roundings on any path and [l] in all *)
Definition ap (B : R) (k l : nat) (t : T3) : Prop :=
  is_finite (fl t) = true /\ Rabs (B2R (fl t) - ex t) <= (pw k - 1) * mg t + INR l * eta32 * pw k /\
  Rabs (ex t) <= mg t /\ mg t <= INR l * B.

Definition fits (B : R) (k l : nat) : Prop := pw k * (INR l * B) + INR l * eta32 * pw k < big32.

Section Ops.
  Variable B : R.
  Hypothesis HB : 0 <= B.
  Let e3 := eta32.
  Lemma round_err v x E S k l : Rabs (v - E) <= (pw k - 1) * S + INR l * eta32 * pw k -> Rabs E <= S -> S <= INR (Datatypes.S l) * B ->
    x = rnd32 v -> Rabs (x - E) <= (pw (Datatypes.S k) - 1) * S + INR (Datatypes.S l) * eta32 * pw (Datatypes.S k) /\
    Rabs x <= pw (Datatypes.S k) * (INR (Datatypes.S l) * B) + INR (Datatypes.S l) * eta32 * pw (Datatypes.S k).
  Proof.
    intros H1 H2 H3 ->. destruct (abs32 v) as (e & h & He & Hh & ->). fold eta32 in Hh.
    pose proof u32_pos as Hu. pose proof eta32_pos as Heta. pose proof (pw_ge1 k) as Hk. pose proof (pos_INR l) as Hl.
    assert (HS : 0 <= S) by (eapply Rle_trans; [apply Rabs_pos|exact H2]).
    assert (Hv : Rabs v <= pw k * S + INR l * eta32 * pw k).
    { replace v with ((v - E) + E) by ring. eapply Rle_trans; [apply Rabs_triang|]. lra. }
    assert (Hev : Rabs (v * e) <= (pw k * S + INR l * eta32 * pw k) * u32).
    { rewrite Rabs_mult. apply Rmult_le_compat; auto using Rabs_pos. }
    assert (P : Rabs (v * (1 + e) + h - E) <= (pw (Datatypes.S k) - 1) * S + INR (Datatypes.S l) * eta32 * pw (Datatypes.S k)).
    { rewrite pw_S, S_INR.
      replace (v * (1 + e) + h - E) with ((v - E) + v * e + h) by ring.
      eapply Rle_trans; [apply Rabs_triang|]. eapply Rle_trans; [apply Rplus_le_compat_r, Rabs_triang|].
      assert (0 <= (pw k - 1) * eta32) by (apply Rmult_le_pos; lra).
      assert (0 <= u32 * (pw k * eta32)) by (apply Rmult_le_pos; [lra|apply Rmult_le_pos; lra]).
      replace (((1 + u32) * pw k - 1) * S + (INR l + 1) * eta32 * ((1 + u32) * pw k))
        with ((pw k - 1) * S + INR l * eta32 * pw k + (pw k * S + INR l * eta32 * pw k) * u32 + (eta32 + (pw k - 1) * eta32 + u32 * (pw k * eta32))) by ring.
      lra. }
    split; [exact P|]. replace (v * (1 + e) + h) with ((v * (1 + e) + h - E) + E) by ring.
    eapply Rle_trans; [apply Rabs_triang|].
    assert (pw (Datatypes.S k) * S <= pw (Datatypes.S k) * (INR (Datatypes.S l) * B)).
    { apply Rmult_le_compat_l; auto. pose proof (pw_ge1 (Datatypes.S k)). lra. }
    lra.
  Qed.

  Lemma ap_mono k l k' l' t : (k <= k')%nat -> (l <= l')%nat -> ap B k l t -> ap B k' l' t.
  Proof.
    intros Hk Hl (F & E & A & M). split; [exact F|]. pose proof (pw_mono Hk). pose proof (pw_ge1 k). pose proof (pw_ge1 k').
    pose proof eta32_pos. apply le_INR in Hl. pose proof (pos_INR l). pose proof (Rabs_pos (ex t)).
    split; [|split; [exact A|]].
    - eapply Rle_trans; [exact E|]. apply Rplus_le_compat.
      + apply Rmult_le_compat_r; lra.
      + apply Rmult_le_compat; try lra.
        * apply Rmult_le_pos; lra.
        * apply Rmult_le_compat_r; lra.
    - eapply Rle_trans; [exact M|]. apply Rmult_le_compat_r; lra.
  Qed.
  Lemma fits_mono k l k' l' : (k <= k')%nat -> (l <= l')%nat -> fits B k' l' -> fits B k l.
  Proof.
    intros Hk Hl. unfold fits. pose proof (pw_mono Hk). pose proof (pw_ge1 k). pose proof (pw_ge1 k').
    pose proof eta32_pos. apply le_INR in Hl. pose proof (pos_INR l).
    assert (pw k * (INR l * B) <= pw k' * (INR l' * B)).
    { apply Rmult_le_compat; try lra. apply Rmult_le_pos; lra. apply Rmult_le_compat_r; lra. }
    assert (INR l * eta32 * pw k <= INR l' * eta32 * pw k').
    { apply Rmult_le_compat; try lra. apply Rmult_le_pos; lra. apply Rmult_le_compat_r; lra. }
    lra.
  Qed.

  Definition fma3 (a b c : T3) : T3 := (f32_fma (fl a) (fl b) (fl c), ex a * ex b + ex c, mg a * mg b + mg c).
  Definition add3 (a b : T3) : T3 := (f32_add (fl a) (fl b), ex a + ex b, mg a + mg b).
  Definition zero3 : T3 := (f32_zero, 0, 0).
  Definition lift (v : f32) : T3 := (v, B2R v, Rabs (B2R v)).

  Lemma zero_ap : ap B 0 0 zero3.
  Proof. unfold ap, zero3, fl, ex, mg; cbn. rewrite Rminus_0_r, Rabs_R0. split; [reflexivity|]. lra. Qed.

  Lemma fma_ap k l (a b : f32) t : is_finite a = true -> is_finite b = true -> Rabs (B2R a * B2R b) <= B ->
    fits B (Datatypes.S k) (Datatypes.S l) -> ap B k l t -> ap B (Datatypes.S k) (Datatypes.S l) (fma3 (lift a) (lift b) t).
  Proof.
    intros Fa Fb Hab Hfit (F & E & A & M). unfold ap, fma3. unfold fl, ex, mg in *. cbn [fst snd lift].
    rewrite <- Rabs_mult.
    destruct (@round_err (B2R a * B2R b + B2R (fst (fst t))) (rnd32 (B2R a * B2R b + B2R (fst (fst t)))) (B2R a * B2R b + snd (fst t))
               (Rabs (B2R a * B2R b) + snd t) k l) as [R1 R2]; auto.
    - replace (B2R a * B2R b + B2R (fst (fst t)) - (B2R a * B2R b + snd (fst t))) with (B2R (fst (fst t)) - snd (fst t)) by ring.
      eapply Rle_trans; [exact E|]. apply Rplus_le_compat_r. apply Rmult_le_compat_l; [pose proof (pw_ge1 k); lra|].
      pose proof (Rabs_pos (B2R a * B2R b)). lra.
    - eapply Rle_trans; [apply Rabs_triang|]. lra.
    - rewrite S_INR. lra.
    - destruct (fma_finite _ _ _ Fa Fb F) as [F' E']; [eapply Rle_lt_trans; [exact R2|exact Hfit]|].
      split; [exact F'|]. rewrite E'. split; [exact R1|]. split; [eapply Rle_trans; [apply Rabs_triang|]; lra|]. rewrite S_INR. lra.
  Qed.

  Lemma add_ap k l l' s t : fits B (Datatypes.S k) (Datatypes.S (l + l')) -> ap B k l s -> ap B k l' t ->
    ap B (Datatypes.S k) (Datatypes.S (l + l')) (add3 s t).
  Proof.
    intros Hfit (F & E & A & M) (F1 & E1 & A1 & M1). unfold ap, add3. unfold fl, ex, mg in *. cbn [fst snd].
    assert (HM : snd s + snd t <= INR (Datatypes.S (l + l')) * B) by (rewrite S_INR, plus_INR; lra).
    assert (HA : Rabs (snd (fst s) + snd (fst t)) <= snd s + snd t) by (eapply Rle_trans; [apply Rabs_triang|]; lra).
    destruct (@round_err (B2R (fst (fst s)) + B2R (fst (fst t))) (rnd32 (B2R (fst (fst s)) + B2R (fst (fst t)))) (snd (fst s) + snd (fst t))
               (snd s + snd t) k (l + l')) as [R1 R2]; auto.
    - replace (B2R (fst (fst s)) + B2R (fst (fst t)) - (snd (fst s) + snd (fst t))) with ((B2R (fst (fst s)) - snd (fst s)) + (B2R (fst (fst t)) - snd (fst t))) by ring.
      eapply Rle_trans; [apply Rabs_triang|]. rewrite plus_INR. lra.
    - destruct (add_finite _ _ F F1) as [F' E']; [eapply Rle_lt_trans; [exact R2|exact Hfit]|].
      split; [exact F'|]. rewrite E'. auto.
  Qed.

  (** ** The kernel *)
  Definition okp (p : T3 * T3) : Prop := exists a b, p = (lift a, lift b) /\ is_finite a = true /\ is_finite b = true /\ Rabs (B2R a * B2R b) <= B.

  Lemma lanes_ap k l a : forall b ch, Forall okp (combine a b) -> Forall (ap B k l) ch -> fits B (Datatypes.S k) (Datatypes.S l) ->
    Forall (ap B (Datatypes.S k) (Datatypes.S l)) (lanes_step fma3 ch (a, b)).
  Proof.
    unfold lanes_step. cbn [fst snd]. induction a as [|x a IH]; intros [|y b] [|c ch] Hp Hc Hf; cbn [combine map]; try constructor.
    - inversion Hp as [|? ? (va & vb & E & Fa & Fb & Hab) _]; subst. inversion Hc; subst. cbn [fst snd].
      assert (Ex : x = lift va) by congruence. assert (Ey : y = lift vb) by congruence. rewrite Ex, Ey. now apply fma_ap.
    - inversion Hp; inversion Hc; subst. apply IH; auto.
  Qed.
  Lemma lanes_fold_ap ps : forall k l ch, Forall (fun ab => Forall okp (combine (fst ab) (snd ab))) ps -> Forall (ap B k l) ch ->
    fits B (length ps + k) (length ps + l) ->
    Forall (ap B (length ps + k) (length ps + l)) (fold_left (lanes_step fma3) ps ch).
  Proof.
    induction ps as [|[a b] ps IH]; intros k l ch Hp Hc Hf; cbn [fold_left length] in *; [exact Hc|].
    inversion Hp as [|? ? Hab Hps]; subst. cbn [fst snd] in Hab.
    replace (Datatypes.S (length ps) + k)%nat with (length ps + Datatypes.S k)%nat in * by lia.
    replace (Datatypes.S (length ps) + l)%nat with (length ps + Datatypes.S l)%nat in * by lia.
    apply IH; auto. apply lanes_ap; auto. eapply fits_mono; [| |exact Hf]; lia.
  Qed.
  Lemma add_fold_ap ch : forall k c l r, Forall (ap B k c) ch -> forall k', (k <= k')%nat -> ap B k' l r ->
    fits B (length ch + k') (length ch * Datatypes.S c + l) ->
    ap B (length ch + k') (length ch * Datatypes.S c + l) (fold_left add3 ch r).
  Proof.
    induction ch as [|x ch IH]; intros k c l r Hc k' Hk Hr Hf; cbn [fold_left length]; [exact Hr|].
    inversion Hc as [|? ? Hx Hch]; subst. cbn [length] in Hf.
    replace (Datatypes.S (length ch) + k')%nat with (length ch + Datatypes.S k')%nat in * by lia.
    replace (Datatypes.S (length ch) * Datatypes.S c + l)%nat with (length ch * Datatypes.S c + Datatypes.S (l + c))%nat in * by lia.
    eapply (IH k c); auto; try lia. apply add_ap; auto.
    - eapply fits_mono; [| |exact Hf]; lia.
    - eapply ap_mono; [| |exact Hx]; lia.
  Qed.
  Lemma fma_fold_ap ps : forall k l r, Forall okp ps -> ap B k l r -> fits B (length ps + k) (length ps + l) ->
    ap B (length ps + k) (length ps + l) (fold_left (fun r ab => fma3 (fst ab) (snd ab) r) ps r).
  Proof.
    induction ps as [|[x y] ps IH]; intros k l r Hp Hr Hf; cbn [fold_left length fst snd] in *; [exact Hr|].
    inversion Hp as [|? ? (va & vb & E & Fa & Fb & Hab) Hps]; subst.
    replace (Datatypes.S (length ps) + k)%nat with (length ps + Datatypes.S k)%nat in * by lia.
    replace (Datatypes.S (length ps) + l)%nat with (length ps + Datatypes.S l)%nat in * by lia.
    assert (Ex : x = lift va) by congruence. assert (Ey : y = lift vb) by congruence. rewrite Ex, Ey.
    apply IH; auto. apply fma_ap; auto. eapply fits_mono; [| |exact Hf]; lia.
  Qed.

  Lemma okp_combine x : forall y, length x = length y -> finite_vec x -> finite_vec y -> Forall2 (fun a b => Rabs (B2R a * B2R b) <= B) x y ->
    Forall okp (combine (map lift x) (map lift y)).
  Proof.
    intros y Hl Hx Hy H. revert Hx Hy; induction H as [|a b x y Hab _ IH]; intros Hx Hy; cbn [map combine]; constructor.
    - inversion Hx; inversion Hy; subst. exists a, b. auto.
    - cbn in Hl. inversion Hx; inversion Hy; subst. apply IH; auto.
  Qed.

  Lemma combine_skipn {X Y} (x : list X) (y : list Y) : forall k, combine (skipn k x) (skipn k y) = skipn k (combine x y).
  Proof.
    revert y; induction x as [|a x IH]; intros y k.
    - now rewrite !skipn_nil.
    - destruct y as [|b y]; [rewrite skipn_nil; destruct (skipn k (a :: x)); cbn; now rewrite skipn_nil|].
      destruct k as [|k]; [reflexivity|]. cbn [skipn combine]. apply IH.
  Qed.
  Lemma forall_skipn {X} (P : X -> Prop) l : forall k, Forall P l -> Forall P (skipn k l).
  Proof. induction l as [|a l IH]; intros [|k] H; cbn; auto. inversion H; auto. Qed.
  Lemma forall_firstn {X} (P : X -> Prop) l : forall k, Forall P l -> Forall P (firstn k l).
  Proof. induction l as [|a l IH]; intros [|k] H; cbn; auto. inversion H; subst. constructor; auto. Qed.
  Lemma combine_firstn' {X Y} (x : list X) (y : list Y) : forall k, combine (firstn k x) (firstn k y) = firstn k (combine x y).
  Proof. revert y; induction x as [|a x IH]; intros [|b y] [|k]; cbn; auto. f_equal. apply IH. Qed.

  Lemma chunks_okp n k : forall (x y : list T3), Forall okp (combine x y) ->
    Forall (fun ab => Forall okp (combine (fst ab) (snd ab))) (combine (chunks_exact_n n k x) (chunks_exact_n n k y)).
  Proof.
    induction n as [|n IH]; intros x y H; cbn [chunks_exact_n combine]; constructor.
    - cbn [fst snd]. rewrite combine_firstn'. now apply forall_firstn.
    - apply IH. rewrite combine_skipn. now apply forall_skipn.
  Qed.
  Lemma chunks_n_length {X} n k : forall x : list X, length (chunks_exact_n n k x) = n.
  Proof. induction n as [|n IH]; intros x; cbn; auto. Qed.
  Lemma lanes_length ch a b : length a = length ch -> length b = length ch -> length (lanes_step fma3 ch (a, b)) = length ch.
  Proof. intros H1 H2. unfold lanes_step. cbn [fst snd]. rewrite map_length, !combine_length. lia. Qed.
  Lemma lanes_fold_le ps : forall ch, (length (fold_left (lanes_step fma3) ps ch) <= length ch)%nat.
  Proof.
    induction ps as [|[a b] ps IH]; intros ch; cbn [fold_left]; [lia|]. eapply Nat.le_trans; [apply IH|].
    unfold lanes_step. rewrite map_length, combine_length. lia.
  Qed.

  Lemma kernel_ap x y : length x = length y -> finite_vec x -> finite_vec y -> Forall2 (fun a b => Rabs (B2R a * B2R b) <= B) x y ->
    fits B (rounds (length x)) (length x + 64) ->
    ap B (rounds (length x)) (length x + 64) (dot_product fma3 add3 zero3 (map lift x) (map lift y)).
  Proof.
    intros Hl Hx Hy H Hf. set (n := length x) in *. unfold rounds in *. set (c := (n / 32)%nat) in *.
    assert (Hn : (n = 32 * c + n mod 32)%nat) by (unfold c; apply Nat.div_mod; lia).
    assert (Hr : (n mod 32 < 32)%nat) by (apply Nat.mod_upper_bound; lia).
    pose proof (okp_combine Hl Hx Hy H) as Hok.
    unfold dot_product, chunks_exact, remainder. rewrite !map_length. rewrite <- Hl. fold n. unfold CHUNK_SIZE. fold c.
    set (ps := combine (chunks_exact_n _ _ _) _). assert (Lps : length ps = c).
    { unfold ps. rewrite combine_length, !chunks_n_length. lia. }
    assert (Hps : Forall (fun ab => Forall okp (combine (fst ab) (snd ab))) ps) by (now apply chunks_okp).
    set (rs := combine (skipn _ _) _). assert (Lrs : length rs = (n mod 32)%nat).
    { unfold rs. rewrite combine_length, !skipn_length, !map_length. fold n. rewrite <- Hl. fold n. lia. }
    assert (Hrs : Forall okp rs).
    { unfold rs. rewrite combine_skipn. now apply forall_skipn. }
    set (ch := fold_left (lanes_step fma3) ps (repeat zero3 32)).
    assert (Hch : Forall (ap B c c) ch).
    { replace c with (length ps + 0)%nat by lia. apply lanes_fold_ap; auto.
      - apply Forall_forall. intros t Ht. apply repeat_spec in Ht. subst t. apply zero_ap.
      - eapply fits_mono; [| |exact Hf]; lia. }
    assert (Lch : (length ch <= 32)%nat) by (unfold ch; eapply Nat.le_trans; [apply lanes_fold_le|rewrite repeat_length; lia]).
    assert (Hs : ap B (c + 32) (32 * c + 32) (fold_left add3 ch zero3)).
    { apply ap_mono with (k := (length ch + c)%nat) (l := (length ch * Datatypes.S c + 0)%nat); [lia|nia|].
      apply (add_fold_ap (k := c)); auto; [|eapply fits_mono; [| |exact Hf]; nia].
      apply ap_mono with (k := 0%nat) (l := 0%nat); [lia|lia|]. apply zero_ap. }
    apply ap_mono with (k := (length rs + (c + 32))%nat) (l := (length rs + (32 * c + 32))%nat); [lia|lia|].
    apply fma_fold_ap; auto. eapply fits_mono; [| |exact Hf]; lia.
  Qed.
End Ops.

(** ** The three components of the result *)
Lemma psum_rdot x : forall y, psum Rplus Rmult 0 (map (@B2R 24 128) x) (map (@B2R 24 128) y) = rdot x y.
Proof. unfold psum. induction x as [|a x IH]; intros [|b y]; cbn; auto. now rewrite IH. Qed.
Lemma psum_adot x : forall y, psum Rplus Rmult 0 (map (fun v : f32 => Rabs (B2R v)) x) (map (fun v : f32 => Rabs (B2R v)) y) = adot x y.
Proof. unfold psum. induction x as [|a x IH]; intros [|b y]; cbn; auto. now rewrite IH, Rabs_mult. Qed.

Lemma parts x y : length x = length y ->
  let t := dot_product fma3 add3 zero3 (map lift x) (map lift y) in
  fl t = dot_f32 x y /\ ex t = rdot x y /\ mg t = adot x y.
Proof.
  intros Hl t. unfold t. split; [|split].
  - rewrite (@dot_hom _ _ fma3 add3 zero3 f32_fma f32_add f32_zero fl); auto. rewrite !map_map. unfold fl. cbn [fst lift]. now rewrite !map_id.
  - rewrite (@dot_hom _ _ fma3 add3 zero3 (fun a b c => a * b + c) Rplus 0 ex); auto. rewrite !map_map. unfold ex. cbn [fst snd lift].
    rewrite <- psum_rdot. apply (@dot_exact R Rplus Rmult 0); try (intros; ring). now rewrite !map_length.
  - rewrite (@dot_hom _ _ fma3 add3 zero3 (fun a b c => a * b + c) Rplus 0 mg); auto. rewrite !map_map. unfold mg. cbn [fst snd lift].
    rewrite <- psum_adot. apply (@dot_exact R Rplus Rmult 0); try (intros; ring). now rewrite !map_length.
Qed.

Lemma dot_err B x y : 0 <= B -> length x = length y -> finite_vec x -> finite_vec y -> Forall2 (fun a b => Rabs (B2R a * B2R b) <= B) x y ->
  fits B (rounds (length x)) (length x + 64) ->
  is_finite (dot_f32 x y) = true /\
  Rabs (B2R (dot_f32 x y) - rdot x y) <= (pw (rounds (length x)) - 1) * adot x y + INR (length x + 64) * eta32 * pw (rounds (length x)) /\
  Rabs (rdot x y) <= adot x y.
Proof.
  intros HB Hl Hx Hy H Hf. destruct (parts Hl) as (E1 & E2 & E3). cbv zeta in *.
  destruct (kernel_ap HB Hl Hx Hy H Hf) as (F & E & A & _). rewrite E1, E2, E3 in *. auto.
Qed.
