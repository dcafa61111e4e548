(** Theorems about the helpers of yuca/utils.py: properties C46, C47, C68, C69. *)
From Coq Require Import Reals Lra Lia List Arith Bool String Ascii ZArith NArith Permutation Sorting.Sorted.
From Verif Require Import Base Tensor PTensor MText SText PText MLibrarian PLibrarian MUtils SUtils PUtils.
Import ListNotations.
Open Scope R_scope.

(** ** C46 Frame names *)
Theorem C46_order n i j : (N.of_nat n <= 10 ^ 10)%N -> (i < j < n)%nat -> before (frame_name n i) (frame_name n j).
Proof. exact (frame_before n i j). Qed.

(** So that sorting the names in any order gives the order of the steps. *)
Theorem C46_sorted n l : (N.of_nat n <= 10 ^ 10)%N -> Permutation l (map (frame_name n) (seq 0 n)) -> sort l = map (frame_name n) (seq 0 n).
Proof. intros Hn P. apply sort_of_perm; [|exact P]. apply (sorted_names n Hn). apply Nat.le_refl. Qed.

Theorem C46_names n i j : frame_name n i = frame_name n j -> i = j.
Proof. exact (frame_inj n i j). Qed.

(** Python's order: an order, and sort sorts. *)
Theorem C46_sort l : Permutation l (sort l) /\ StronglySorted not_after (sort l) /\
  (forall s t u, before s t -> before t u -> before s u) /\ (forall s, ~ before s s).
Proof. split; [apply sort_perm|]. split; [apply sort_sorted|]. split; [exact before_trans|exact before_irrefl]. Qed.

(** With more digits than the width the order is lost. *)
Theorem C46_beyond_refuted : exists i j, (i < j)%N /\ before ("frame_" ++ pad 10 j ++ ".png")%string ("frame_" ++ pad 10 i ++ ".png")%string.
Proof.
  exists 9999999999%N, 10000000000%N. split; [lia|]. apply before_prefix.
  apply (compare_before (pad 10 10000000000 ++ ".png")%string). vm_compute. reflexivity.
Qed.

Example ex_names : frame_name 49 7 = "frame_00007.png"%string /\ frame_name 50 7 = "frame_0000000007.png"%string.
Proof. split; reflexivity. Qed.
Example ex_sorted : sort (rev (map (frame_name 12) (seq 0 12))) = map (frame_name 12) (seq 0 12).
Proof. apply C46_sorted; [lia|]. apply Permutation_sym, Permutation_rev. Qed.

(** ** C47 Masks *)

(** Exact arithmetic, even square images. *)
Theorem C47_bite img r br co : (1 <= r)%nat -> tH img = (2 * r)%nat -> tW img = (2 * r)%nat ->
  exists m, get_bite_mask axis_len img br co = Ok m /\ mask_of img (in_disc (tH img) br (fst co) (snd co)) 0 1 m.
Proof. exact (bite_mask_spec img r br co). Qed.

Theorem C47_aperture img r a : (1 <= r)%nat -> tH img = (2 * r)%nat -> tW img = (2 * r)%nat ->
  (a < 975 / 1000 -> exists m, get_aperture axis_len img a = Ok m /\ mask_of img (in_disc (tH img) a 0 0) 1 0 m) /\
  (975 / 1000 <= a -> get_aperture axis_len img a = Ok (build (tB img) (tC img) (tH img) (tW img) (fun _ _ _ _ => 1))).
Proof. exact (aperture_spec img r a). Qed.

(** Odd or oblong images raise, as do images of at most one row. *)
Theorem C47_bite_errors img br co : (0 < tC img)%nat ->
  ((tH img < 2)%nat -> get_bite_mask axis_len img br co = Err ZeroDivisionError) /\
  ((2 <= tH img)%nat -> (Nat.odd (tH img) = true \/ tH img <> tW img) -> get_bite_mask axis_len img br co = Err ValueError).
Proof. intros H. split; [exact (proj1 (bite_errors axis_len img br co H))|exact (bite_exact_errors img br co H)]. Qed.

Theorem C47_aperture_errors img a : (0 < tC img)%nat -> a < 975 / 1000 ->
  ((tH img < 2)%nat -> get_aperture axis_len img a = Err ZeroDivisionError) /\
  ((2 <= tH img)%nat -> (Nat.odd (tH img) = true \/ tH img <> tW img) -> get_aperture axis_len img a = Err ValueError).
Proof. exact (aperture_errors img a). Qed.

(** In double precision np.arange gives one point too many for some even sizes, and the
    function raises. *)
Theorem C47_double : exists r, (1 <= r)%nat /\ forall img br co, (0 < tC img)%nat -> tH img = (2 * r)%nat -> tW img = (2 * r)%nat ->
  get_bite_mask axis_len_double img br co = Err ValueError.
Proof. exists 29%nat. split; [lia|]. intros img br co HC HH _. exact (bite_double img br co HC HH). Qed.

Example ex_bite : exists m, get_bite_mask axis_len (build 1 1 4 4 (fun _ _ _ _ => 0)) (1 / 4) (0, 0) = Ok m /\
  get m 0 0 2 2 = 1 /\ get m 0 0 0 0 = 1.
Proof.
  destruct (bite_mask_spec (build 1 1 4 4 (fun _ _ _ _ => 0)) 2 (1 / 4) (0, 0) ltac:(lia) eq_refl eq_refl) as (m & E & _ & _ & G).
  exists m. split; [exact E|]. 
  assert (K : forall i j, (i < 4)%nat -> (j < 4)%nat -> 1 <= Rabs (pixel 4 j) \/ 1/2 <= Rabs (pixel 4 j) -> get m 0 0 i j = 1).
  { intros i j Hi Hj Ha. apply G; [cbn; lia|exact Hi|exact Hj|]. unfold in_disc. cbn [tH build fst snd]. intros L.
    assert (S1 : Rabs (pixel 4 j) <= sqrt ((pixel 4 j - 0) ^ 2 + (pixel 4 i - 0) ^ 2)).
    { rewrite <- sqrt_Rsqr_abs. apply sqrt_le_1_alt. unfold Rsqr. pose proof (Rle_0_sqr (pixel 4 i)) as Q. unfold Rsqr in Q. nra. }
    cbn [INR] in L. lra. }
  split; apply K; try lia; unfold pixel; cbn [INR]; unfold Rabs; destruct (Rcase_abs _); lra.
Qed.
Example ex_double : axis_len_double 28 = 56%nat /\ axis_len_double 29 = 59%nat.
Proof. split; vm_compute; reflexivity. Qed.

(** ** C68 prep_input *)

(** Every image of the batch is the picture inside the aperture, outside its bite, plus its
    own noise; extra channels stay zero. *)
Theorem C68_batch img r ext n ar br nl co noise : (1 <= r)%nat -> tH img = (2 * r)%nat -> tW img = (2 * r)%nat -> tB img = 1%nat ->
  (tC img <= ext)%nat -> (forall k, twf (noise k) /\ shape (noise k) = shape img) ->
  exists b', prep_input axis_len img (Some ext) n ar br nl co noise = Ok b' /\ shape b' = (n, ext, tH img, tW img) /\
    forall b c i j, (b < n)%nat -> (c < ext)%nat -> (i < tH img)%nat -> (j < tW img)%nat ->
      ((tC img <= c)%nat -> get b' b c i j = 0) /\
      ((c < tC img)%nat ->
         let bitten := in_disc (tH img) br (fst (co b) * (INR r)) (snd (co b) * INR r) i j in
         let visible := in_disc (tH img) ar 0 0 i j \/ 975 / 1000 <= ar in
         (visible -> ~ bitten -> get b' b c i j = get img 0 c i j + nl * get (noise b) 0 c i j) /\
         (~ visible \/ bitten -> get b' b c i j = nl * get (noise b) 0 c i j)).
Proof.
  intros Hr HH HW HB HC Hn. destruct (prep_eq img r ext n ar br nl co noise Hr HH HW HB HC Hn) as (b' & E & S & G).
  exists b'. split; [exact E|]. split; [exact S|]. intros b c i j Hb Hc Hi Hj. rewrite G by assumption. split.
  - intros H. destruct (Nat.ltb_spec c (tC img)); [lia|reflexivity].
  - intros H. destruct (Nat.ltb_spec c (tC img)); [|lia]. cbv zeta. unfold prep_at, bite_at, in_disc. cbv zeta.
    assert (E2 : (tH img / 2)%nat = r) by (rewrite HH; apply half_even). rewrite E2.
    destruct (Rlt_dec ar (975 / 1000)) as [A|A];
    destruct (Rlt_dec (sqrt ((pixel (tH img) j - fst (co b) * INR r) ^ 2 + (pixel (tH img) i - snd (co b) * INR r) ^ 2)) (br * (INR (tH img) / 2))) as [B|B];
    destruct (Rlt_dec (sqrt ((pixel (tH img) j - 0) ^ 2 + (pixel (tH img) i - 0) ^ 2)) (ar * (INR (tH img) / 2))) as [D|D];
    split; intros V; try (intros W); try lra; exfalso; first [contradiction | destruct V as [V|V]; first [contradiction | lra | apply V; tauto | apply V; right; lra]].
Qed.

Theorem C68_bounds img r ext n ar br nl co noise : (1 <= r)%nat -> tH img = (2 * r)%nat -> tW img = (2 * r)%nat -> tB img = 1%nat ->
  (tC img <= ext)%nat -> (forall k, twf (noise k) /\ shape (noise k) = shape img) -> 0 <= nl ->
  (forall c i j, 0 <= get img 0 c i j <= 1) -> (forall k c i j, 0 <= get (noise k) 0 c i j <= 1) ->
  exists b', prep_input axis_len img (Some ext) n ar br nl co noise = Ok b' /\
    forall b c i j, (b < n)%nat -> (c < ext)%nat -> (i < tH img)%nat -> (j < tW img)%nat -> 0 <= get b' b c i j <= 1 + nl.
Proof.
  intros Hr HH HW HB HC Hn Hl Hi Hno. destruct (prep_eq img r ext n ar br nl co noise Hr HH HW HB HC Hn) as (b' & E & S & G).
  exists b'. split; [exact E|]. intros b c i j Hb Hc Hi' Hj. rewrite G by assumption. destruct (Nat.ltb c (tC img)); [|lra].
  apply prep_at_bounds; auto.
Qed.

(** Without an explicit channel count the batch size of the image is used, and images of more
    than one channel raise. *)
Theorem C68_default img r n ar br nl co noise : (1 <= r)%nat -> tH img = (2 * r)%nat -> tW img = (2 * r)%nat -> tB img = 1%nat ->
  (2 <= tC img)%nat -> (forall k, twf (noise k) /\ shape (noise k) = shape img) ->
  prep_input axis_len img None (S n) ar br nl co noise = Err RuntimeError.
Proof. exact (prep_default img r n ar br nl co noise). Qed.

Example ex_prep : let z := build 1 1 2 2 (fun _ _ _ _ => 0) in
  exists b', prep_input axis_len (build 1 1 2 2 (fun _ _ _ _ => 1)) (Some 3%nat) 2 1 0 (1 / 20) (fun _ => (0, 0)) (fun _ => z) = Ok b' /\
    get b' 1 0 1 1 = 1 /\ get b' 1 2 1 1 = 0.
Proof.
  cbv zeta. 
  destruct (C68_batch (build 1 1 2 2 (fun _ _ _ _ => 1)) 1 3 2 1 0 (1 / 20) (fun _ => (0, 0)) (fun _ => build 1 1 2 2 (fun _ _ _ _ => 0))) as (b' & E & _ & G);
    try reflexivity; try (cbn; lia).
  { intros _. split; [apply twf_build|reflexivity]. }
  exists b'. split; [exact E|]. split.
  - destruct (G 1%nat 0%nat 1%nat 1%nat ltac:(lia) ltac:(lia) ltac:(cbn; lia) ltac:(cbn; lia)) as [_ G1].
    destruct (G1 ltac:(cbn; lia)) as [G2 _]. cbv zeta in G2. rewrite G2.
    + rewrite !get_build by lia. lra.
    + right. lra.
    + unfold in_disc. cbn [tH build]. intros L. pose proof (sqrt_pos ((pixel 2 1 - fst (0, 0) * INR 1) ^ 2 + (pixel 2 1 - snd (0, 0) * INR 1) ^ 2)). lra.
  - apply (G 1%nat 2%nat 1%nat 1%nat); cbn; lia.
Qed.

(** ** C69 Animations *)

(** Starting from a directory without pictures, the animation shows the first state twice and
    then every saved state once, in order: all of them up to the first vanishing one or the
    requested number. No animation is made from an empty or single frame loop, and asking for
    zero steps raises. *)
Theorem C69_movie {G I} frame dead (render : G -> I) n sp u (d0 : dir I) m : (N.of_nat n <= 10 ^ 10)%N ->
  (forall f, dget d0 f <> None -> contains "png" f = false) -> shown frame dead n sp u m ->
  save_fig_sequence frame dead render n sp (u 0%nat) d0 =
  if Nat.eqb n 0 then Err UnboundLocalError
  else if Nat.eqb m 0 || Nat.eqb n 1 then Ok None
  else Ok (Some (render (u 0%nat) :: map (fun i => render (u i)) (seq 0 m))).
Proof. intros Hn Hd. exact (movie frame dead render n sp u d0 Hn Hd m). Qed.

(** Without pictures there is nothing to animate. *)
Theorem C69_no_frames {I} (d : dir I) : (forall f, dget d f <> None -> contains "png" f = false) -> make_gif d = Err IndexError.
Proof.
  intros H. unfold make_gif. rewrite open_all_filter.
  assert (E : filter (contains "png") (sort (map fst d)) = []).
  { assert (Q : forall l, (forall f, In f l -> contains "png" f = false) -> filter (contains "png") l = []).
    { induction l as [|a l IH]; intros K; [reflexivity|]. cbn [filter]. rewrite (K a) by now left. apply IH. intros; apply K; now right. }
    apply Q. intros f Hf. apply H. apply dget_in. eapply Permutation_in; [apply Permutation_sym, sort_perm|exact Hf]. }
  rewrite E. reflexivity.
Qed.

(** A counter that dies at 3: three frames out of ten. *)
Example ex_movie : save_fig_sequence (fun k => Ok (k + 1)%nat) (fun k => Nat.leb 3 k) (fun k => (10 * k)%nat) 10 1 0%nat [("readme.txt", CText "")]%string =
  Ok (Some [0; 0; 10; 20]%nat).
Proof. reflexivity. Qed.
(** Frames left over from an interrupted run are shown as well. *)
Example ex_leftover : save_fig_sequence (fun k => Ok (k + 1)%nat) (fun k => Nat.leb 3 k) (fun k => (10 * k)%nat) 10 1 0%nat [("frame_00002.png", CArray 7%nat); ("frame_00005.png", CArray 99%nat)]%string =
  Ok (Some [0; 0; 10; 20; 99]%nat).
Proof. reflexivity. Qed.

Print Assumptions C46_order.
Print Assumptions C46_sorted.
Print Assumptions C46_names.
Print Assumptions C46_sort.
Print Assumptions C46_beyond_refuted.
Print Assumptions C47_bite.
Print Assumptions C47_aperture.
Print Assumptions C47_bite_errors.
Print Assumptions C47_aperture_errors.
Print Assumptions C47_double.
Print Assumptions C68_batch.
Print Assumptions C68_bounds.
Print Assumptions C68_default.
Print Assumptions C69_movie.
Print Assumptions C69_no_frames.
