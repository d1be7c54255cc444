(** * Theorems C67: the Python classes, from appending to searching saved files *)
From Coq Require Import ZArith Reals Lra Lia.
From Flocq Require Import Core IEEE754.BinarySingleNaN.
From Verif Require Import Base BaseFacts Bytes PBytes MSliceVec SSliceVec PFixed MIndexIo SIndexIo PIndexCrash MSearch SSearch MBuild SBuild MReorder MFloat MFloatBits MAngular SAngular MLayerSize SLayerSize TLayerSize.
From Verif Require Import PF32 PCode PAngInt PAng PQuant PDense PDenseHist PBuilder PHistory PHistGen SPipeline TSlice TVectors MEmbed SEmbed PEmbed PEmbed2 MParse SParse PParse MPyIndex SPyIndex PPipelineB PPyIndex PPyWords PPyMain SPyMore PPyMore PPyKinds PPyIx PPyIxW.
Close Scope R_scope. Close Scope Z_scope.
Open Scope nat_scope.

(** ** "angular_int" *)
(** Whatever vectors of one dimension without NaN are appended, in between calls
    of [build]: the index and the elements can be saved; opened again they give
    every vector back (quantised), and every search answers by distances as
    [compute_distance] gives them.  A session of [append(x)] and [build()] does
    not fail; after [build()] all vectors are indexed. *)
Theorem C67_angular_int :
  forall fuel usort json L o w cs,
    sorts_by_dist usort -> options_ok L o -> (0 < Z.of_nat w <= 131071)%Z ->
    Forall (int_value w) (appended cs) -> few_layers L o (length (appended cs)) ->
    length (appended cs) < fuel -> (N.of_nat (length (appended cs)) < 4294967295)%N ->
    exists p0, pb_new Release fuel usort json L s_angular_int None None None None o = Ok p0 /\
    match py_session Release fuel usort p0 cs with
    | Fail e => Forall complete cs -> e = OutOfFuel
    | Ok p => appended cs <> [] -> exists n,
        works json fuel s_angular_int None None
          (fun x y d => py_compute_distance Release s_angular_int x y = Ok d) (int_value w)
          (fun x e => exists v k, x = PyFloats v /\ quantize Release v = Ok k /\ e = PeInts k)
          (fun x e => exists v k, x = PyFloats v /\ quantize Release v = Ok k /\ e = PeInts k) p (appended cs) n /\
        ((exists cs' f s, cs = cs' ++ [PcBuild f None s]) -> n = length (appended cs))
    end.
Proof.
  intros fuel usort json L o w cs Hs Ho Hw Hv Hfew Hf Hn.
  destruct (@i8_new fuel usort json L Hs w Hw o Ho) as (p0 & E0 & H0). exists p0. split; [exact E0|].
  specialize (H0 ltac:(lia)).
  pose proof (@i8_sessions fuel usort Hs w Hw [] _ 0 0 p0 cs H0 Hv Hf Hn) as H. cbn [app] in H.
  destruct (py_session Release fuel usort p0 cs) as [p|e]; [|exact H].
  intros Hne. destruct H as (k & n & HI & Hk & Hlast). exists n. split; [|exact Hlast].
  eapply i8_works; eauto; [now apply options_nn|]. apply (Hk 24); [now apply options_full|lia].
Qed.
Print Assumptions C67_angular_int.


(** ** "angular" *)
(** The same for [f32] vectors: finite and all zero or neither tiny nor huge;
    every vector is given back normalised. *)
Theorem C67_angular :
  forall fuel usort json L o w cs,
    sorts_by_dist usort -> options_ok L o -> 0 < w -> (Z.of_nat (rounds w) <= 10000)%Z ->
    Forall (float_value w) (appended cs) -> few_layers L o (length (appended cs)) ->
    length (appended cs) < fuel -> (N.of_nat (length (appended cs)) < 4294967295)%N ->
    exists p0, pb_new Release fuel usort json L s_angular None None None None o = Ok p0 /\
    match py_session Release fuel usort p0 cs with
    | Fail e => Forall complete cs -> e = OutOfFuel
    | Ok p => appended cs <> [] -> exists n,
        works json fuel s_angular None None
          (fun x y d => py_compute_distance Release s_angular x y = Ok d) (float_value w)
          (fun x e => exists v, x = PyFloats v /\ e = PeFloats (angular_vector v))
          (fun x e => exists v, x = PyFloats v /\ e = PeFloats (angular_vector v)) p (appended cs) n /\
        ((exists cs' f s, cs = cs' ++ [PcBuild f None s]) -> n = length (appended cs))
    end.
Proof.
  intros fuel usort json L o w cs Hs Ho Hw0 Hw Hv Hfew Hf Hn.
  destruct (@f32k_new fuel usort json L Hs w Hw0 Hw o Ho) as (p0 & E0 & H0). exists p0. split; [exact E0|].
  specialize (H0 ltac:(lia)).
  pose proof (@f32k_sessions fuel usort Hs w Hw0 Hw [] _ 0 0 p0 cs H0 Hv Hf Hn) as H. cbn [app] in H.
  destruct (py_session Release fuel usort p0 cs) as [p|e]; [|exact H].
  intros Hne. destruct H as (k & n & HI & Hk & Hlast). exists n. split; [|exact Hlast].
  eapply f32k_works; eauto; [now apply options_nn|]. apply (Hk 24); [now apply options_full|lia].
Qed.
Print Assumptions C67_angular.
