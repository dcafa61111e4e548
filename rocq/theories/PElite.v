(** Proofs about the automaton of a search. *)
From Coq Require Import Reals Lra Lia List Arith Bool ZArith String.
From Verif Require Import Base PyDict MActivations MKernels MCommon MCca MEvo MConfig SConfig MElite SElite PConfig PConfigX PConfigV PEvoX.
Import ListNotations.
Open Scope R_scope.

(** ** The automaton *)
(** [kern]: the kernel dictionary, once there is one; [cur]: the parameters. *)
Definition holds (L : layout) (gd pd : dict) (kern : option dict) (cur : list R) (w : world) : Prop :=
  get_params (w_obj w) = Some cur /\ laid_out L (w_obj w) /\
  match kern with
  | None => plain (w_obj w) /\ gd = stock_fn /\ pd = stock_fn
  | Some kd => exists lb lc, loaded_with kd lb lc w /\ (forall v, dset "parameters" (VVec v) lb = dset "parameters" (VVec v) gd) /\
                 (forall v, dset "parameters" (VVec v) lc = dset "parameters" (VVec v) pd)
  end.

Definition tells (L : layout) (gd pd : dict) (kern : option dict) (cur : list R) (c : pcfg) : Prop :=
  match kern with
  | None => p_nb c = Some (kernel_entry L cur) /\ stock_growth c
  | Some kd => p_nb c = Some kd /\ growth_into L gd pd cur c
  end.

Lemma slices L o cur : get_params o = Some cur -> laid_out L o ->
  fn_params (gens (o_core o)) = slice 0 (la_gen L) cur /\ fn_params (pers (o_core o)) = slice (la_gen L) (la_per L) cur /\
  o_kpar o = KPVec (slice (la_gen L + la_per L) (la_ker L) cur).
Proof.
  intros G (Lg & Lp & (l & K & Lk) & _). unfold get_params in G. rewrite K in G. cbn [kp_flat] in G. injection G as <-. unfold slice. cbn [skipn].
  rewrite <- app_assoc, <- Lg, <- Lp, <- Lk. split; [now rewrite firstn_app, Nat.sub_diag, firstn_all, app_nil_r|].
  split; [now rewrite skipn_app, skipn_all, Nat.sub_diag; cbn [skipn app]; rewrite firstn_app, Nat.sub_diag, firstn_all, app_nil_r|].
  rewrite K. f_equal. rewrite app_assoc, <- app_length, skipn_app, skipn_all, Nat.sub_diag. cbn [skipn app]. now rewrite firstn_all.
Qed.

Lemma dset_twice k v w d : dset k v (dset k w d) = dset k v d.
Proof.
  induction d as [|[q x] t IH]; cbn [dset]; [now rewrite String.eqb_refl|]. destruct (String.eqb k q) eqn:E; cbn [dset]; rewrite E; [reflexivity|]. now rewrite IH.
Qed.

Lemma mix_length (l1 : list (R * R * R)) : forall l2, List.length l1 = List.length l2 ->
  List.length (act_params (AMixture l1 true)) = List.length (act_params (AMixture l2 true)).
Proof. induction l1 as [|[[? ?] ?] u IHu]; intros [|[[? ?] ?] z] F; cbn in F |- *; try lia. specialize (IHu z ltac:(lia)). cbn in IHu. lia. Qed.

Lemma frame_length l l' : Forall2 act_frame l l' -> List.length (fn_params l) = List.length (fn_params l').
Proof.
  induction 1 as [|a b t t' F _ IH]; [reflexivity|]. unfold fn_params in *. cbn [flat_map]. rewrite !app_length, IH. f_equal.
  destruct a, b; cbn [act_frame] in F; try (exfalso; exact F); try discriminate F; try (injection F; intros; subst; reflexivity); try reflexivity.
  - destruct F as (F1 & F2 & _). cbn [act_params]. rewrite !app_length. lia.
  - destruct F as (F & _). apply (f_equal (@List.length R)) in F. rewrite !map_length in F. exact (mix_length gs gs0 F).
  - destruct F as (F & _). exact F.
Qed.

Lemma set_holds L gd pd kern cur w p o : holds L gd pd kern cur w -> List.length p = la_size L -> set_params (w_obj w) p = Ok o ->
  holds L gd pd kern p (mkWorld o (w_heap w) (w_env w)).
Proof.
  intros (G & La & K) Lp S. destruct (set_get _ _ _ S) as (v & Gv & G'). rewrite G in Gv. injection Gv as <-.
  destruct (slices L _ _ G La) as (S1 & S2 & S3). assert (Lc : List.length cur = la_size L).
  { destruct La as (A & B & (l & C & D) & _). unfold get_params in G. rewrite C in G. cbn [kp_flat] in G. injection G as <-. rewrite !app_length. unfold la_size. lia. }
  rewrite Lc, <- Lp, firstn_all in G'.
  destruct (set_params_inv _ _ _ S) as (l & g & q & k & E1 & F & E2 & -> & -> & P & F1 & F2 & _ & _ & Kp).
  destruct Kp as (_ & _ & _ & _ & _ & _ & _ & R1 & _ & N1 & N2 & N3 & _). destruct La as (A & B & (l' & C & D) & Ra).
  rewrite C in E1. injection E1 as ->. unfold holds. cbn [w_obj w_heap w_env]. split; [exact G'|]. split.
  - split; [now rewrite <- (frame_length _ _ F1)|]. split; [now rewrite <- (frame_length _ _ F2)|]. split; [|now rewrite R1].
    eexists. split; [exact E2|]. rewrite firstn_length, skipn_length, Lp. unfold fn_count. rewrite app_length, A, B. unfold la_size. rewrite D. lia.
  - unfold plain, loaded_with in *. cbn [w_obj w_heap]. rewrite N1, N2, N3. exact K.
Qed.

Lemma make_holds L gd pd kern cur w c o h ev : holds L gd pd kern cur w -> make_config (w_obj w) (w_heap w) = (c, o, h) ->
  tells L gd pd kern cur c /\ holds L gd pd (Some (match kern with None => kernel_entry L cur | Some kd => kd end)) cur (mkWorld o h ev).
Proof.
  intros (G & La & K) M. destruct (slices L _ _ G La) as (S1 & S2 & S3). pose proof La as (_ & _ & _ & Ra).
  unfold make_config in M. cbv zeta in M. injection M as <- <- <-.
  destruct kern as [kd|].
  - destruct K as (lb & lc & (a & b & c & Ea & Eb & Ec & Nab & Nac & Nbc & La1 & Lb1 & Lc1 & Ha & Hb & Hc) & Db & Dc).
    rewrite Ea, Eb, Ec. cbn [fn_config fst snd]. unfold tells, growth_into. cbn [p_nb p_gen p_per].
    rewrite !(hget_hset_neq _ c a), !(hget_hset_neq _ b a) by congruence. rewrite (hget_hset_neq _ c b) by congruence.
    rewrite (hget_hset_eq _ c) by (rewrite hset_length; exact Lc1). rewrite (hget_hset_eq _ b) by exact Lb1. rewrite (hget_hset_neq _ b c) by congruence.
    rewrite Ha, Hb, Hc, Db, Dc, S1, S2. split; [cbn [p_same]; repeat split; apply Nat.eqb_neq; exact Nbc|].
    unfold holds. cbn [w_obj w_heap]. split; [exact G|]. split; [exact La|].
    eexists _, _. split.
    + exists a, b, c. cbn [w_obj w_heap o_nb o_gen o_per]. do 3 (split; [reflexivity|]). do 3 (split; [assumption|]). rewrite !hset_length. do 3 (split; [assumption|]).
      rewrite !(hget_hset_neq _ c a), !(hget_hset_neq _ b a) by congruence. rewrite (hget_hset_neq _ c b) by congruence.
      rewrite (hget_hset_eq _ c) by (rewrite hset_length; exact Lc1). rewrite (hget_hset_eq _ b) by exact Lb1. split; [exact Ha|]. split; reflexivity.
    + split; intros v; apply dset_twice.
  - destruct K as ((Ea & Eb & Ec) & -> & ->). rewrite Ea, Eb, Ec. cbn [fn_config alloc fst snd]. rewrite S3. cbn [kp_value].
    set (h := w_heap w). set (kd := kernel_entry L cur). rewrite Ra. change [("name"%string, VStr "GaussianMixture"); ("kernel_kwargs"%string, VDict [("parameters"%string, VVec (slice (la_gen L + la_per L) (la_ker L) cur))]); ("radius"%string, la_radius L)] with kd.
    assert (N : forall d1 d2 d3 : dict, (((h ++ [d1]) ++ [d2]) ++ [d3] = h ++ [d1; d2; d3])%list) by (intros; rewrite <- !app_assoc; reflexivity).
    rewrite !N, !app_length. cbn [List.length]. assert (H0 : hget (h ++ [kd; fixed_fn; fixed_fn])%list (List.length h) = kd) by (unfold hget; rewrite app_nth2, Nat.sub_diag by lia; reflexivity).
    assert (H1 : hget (h ++ [kd; fixed_fn; fixed_fn])%list (List.length h + 1)%nat = fixed_fn) by (unfold hget; rewrite app_nth2 by lia; replace (List.length h + 1 - List.length h)%nat with 1%nat by lia; reflexivity).
    assert (H2 : hget (h ++ [kd; fixed_fn; fixed_fn])%list (List.length h + 1 + 1)%nat = fixed_fn) by (unfold hget; rewrite app_nth2 by lia; replace (List.length h + 1 + 1 - List.length h)%nat with 2%nat by lia; reflexivity).
    rewrite H0, H1, H2. split; [cbn [tells p_nb p_gen p_per p_same]; unfold stock_growth; cbn [p_gen p_per p_same]; repeat split; apply Nat.eqb_neq; lia|].
    unfold holds. cbn [w_obj w_heap]. split; [unfold get_params in *; cbn [o_core o_kpar]; rewrite S3 in G; exact G|].
    split; [destruct La as (A & B & (l & C & D) & _); split; [exact A|]; split; [exact B|]; split; [|reflexivity]; exists l; rewrite C in S3; injection S3 as <-; split; [reflexivity|exact D]|].
    exists fixed_fn, fixed_fn. split; [|split; intros v; reflexivity]. eexists _, _, _. cbn [w_obj w_heap o_nb o_gen o_per]. do 3 (split; [reflexivity|]).
    rewrite app_length. cbn [List.length]. repeat split; try lia; assumption.
Qed.

(** ** A sequence of calls *)
Definition event : Type := (nat * nat + Z)%type.

(** What each configuration is made from: the kernel dictionary so far, and the parameters. *)
Fixpoint told (L : layout) (ds : list deed) (kern : option dict) (cur : list R) : list (event * option dict * list R) :=
  let next := Some (match kern with None => kernel_entry L cur | Some kd => kd end) in
  match ds with
  | [] => []
  | DSet p :: t => told L t kern p
  | DSave x :: t => (inr x, kern, cur) :: told L t next cur
  | DMake k i :: t => (inl (k, i), kern, cur) :: told L t next cur
  | DLog _ _ :: t => told L t kern cur
  end.

Fixpoint last_set (ds : list deed) (cur : list R) : list R :=
  match ds with [] => cur | DSet p :: t => last_set t p | _ :: t => last_set t cur end.
Fixpoint kern_after (L : layout) (ds : list deed) (kern : option dict) (cur : list R) : option dict :=
  match kern with
  | Some kd => Some kd
  | None => match ds with
            | [] => None
            | DSet p :: t => kern_after L t None p
            | DLog _ _ :: t => kern_after L t None cur
            | _ => Some (kernel_entry L cur)
            end
  end.

Lemma kern_some L ds kd cur : kern_after L ds (Some kd) cur = Some kd.
Proof. destruct ds; reflexivity. Qed.

Lemma told_app L a b : forall kern cur, told L (a ++ b) kern cur = (told L a kern cur ++ told L b (kern_after L a kern cur) (last_set a cur))%list.
Proof.
  induction a as [|d a IH]; intros kern cur; [destruct kern; reflexivity|].
  destruct d, kern; cbn [app told last_set kern_after]; rewrite IH; cbn [app]; rewrite ?kern_some; reflexivity.
Qed.

Lemma last_set_app a b : forall cur, last_set (a ++ b) cur = last_set b (last_set a cur).
Proof. induction a as [|d a IH]; intros cur; [reflexivity|]. destruct d; cbn; apply IH. Qed.

Lemma kern_app L a b : forall kern cur, kern_after L (a ++ b) kern cur = kern_after L b (kern_after L a kern cur) (last_set a cur).
Proof.
  induction a as [|d a IH]; intros kern cur; [destruct kern; reflexivity|].
  destruct kern; [cbn [kern_after]; now rewrite !kern_some|]. destruct d; cbn [app kern_after last_set]; rewrite ?kern_some; try reflexivity; apply IH.
Qed.

Definition fits (L : layout) (d : deed) : Prop := match d with DSet p => List.length p = la_size L | _ => True end.

Section Run.
  Variable cfg_file log_file : Z -> string.

  Definition kept_logs (ms : list (event * pcfg)) : list (nat * nat * pcfg) :=
    flat_map (fun m => match fst m with inl (k, i) => [(k, i, snd m)] | inr _ => [] end) ms.
  Definition stored (path : string) (ms : list (event * pcfg)) (d : option entry) : option entry :=
    fold_left (fun a m => match fst m with inr x => if String.eqb path (npy (cfg_file x)) then Some (FConfig (snd m)) else a | inl _ => a end) ms d.

  Lemma perform_told L gd pd ds : forall kern cur w cs w', Forall (fits L) ds -> holds L gd pd kern cur w -> perform cfg_file log_file ds w = Ok (cs, w') ->
    exists ms, Forall2 (fun m e => fst m = fst (fst e) /\ tells L gd pd (snd (fst e)) (snd e) (snd m)) ms (told L ds kern cur) /\
      cs = kept_logs ms /\
      (forall path, (forall x l, In (DLog x l) ds -> path <> npy (log_file x)) -> fs_get (e_fs (w_env w')) path = stored path ms (fs_get (e_fs (w_env w)) path)).
  Proof.
    induction ds as [|d ds IH]; intros kern cur w cs w' F H P; cbn [perform] in P.
    - injection P as <- <-. exists []. split; [constructor|]. split; reflexivity.
    - apply bind_ok in P as ([c1 w1] & P1 & P). cbn [fst snd] in P. apply bind_ok in P as ([c2 w2] & P2 & P). cbn [fst snd] in P. injection P as <- <-.
      inversion F as [|? ? Fd Ft]; subst. destruct d as [p|x|k i|x l]; cbn [do_deed] in P1.
      + apply bind_ok in P1 as (o & S & P1). injection P1 as <- <-. cbn [fits] in Fd.
        destruct (IH kern p _ _ _ Ft (set_holds _ _ _ _ _ _ _ _ H Fd S) P2) as (ms & A & B & C). exists ms. cbn [told app]. split; [exact A|]. split; [exact B|].
        intros path Hp. rewrite C by (intros y l' I; apply (Hp y l'); right; exact I). reflexivity.
      + unfold save_config in P1. destruct (make_config (w_obj w) (w_heap w)) as [[c o] h] eqn:M. injection P1 as <- <-.
        destruct (make_holds _ _ _ _ _ _ _ _ _ {| e_fs := fs_set (e_fs (w_env w)) (npy (cfg_file x)) (FConfig c); e_dir := e_dir (w_env w) |} H M) as [T H'].
        destruct (IH _ _ _ _ _ Ft H' P2) as (ms & A & B & C). exists ((inr x, c) :: ms). cbn [told app]. split; [constructor; [split; [reflexivity|exact T]|exact A]|]. split; [exact B|].
        intros path Hp. rewrite C by (intros y l' I; apply (Hp y l'); right; exact I). cbn [w_env e_fs]. unfold stored. cbn [fold_left fst snd]. f_equal.
        destruct (String.eqb_spec path (npy (cfg_file x))) as [->|N]; [apply fs_get_set|apply fs_get_set_neq; exact N].
      + destruct (make_config (w_obj w) (w_heap w)) as [[c o] h] eqn:M. injection P1 as <- <-.
        destruct (make_holds _ _ _ _ _ _ _ _ _ (w_env w) H M) as [T H'].
        destruct (IH _ _ _ _ _ Ft H' P2) as (ms & A & B & C). exists ((inl (k, i), c) :: ms). cbn [told app]. split; [constructor; [split; [reflexivity|exact T]|exact A]|].
        split; [cbn; now rewrite B|]. intros path Hp. rewrite C by (intros y l' I; apply (Hp y l'); right; exact I). reflexivity.
      + injection P1 as <- <-. destruct (IH kern cur _ _ _ Ft (H : holds L gd pd kern cur (mkWorld (w_obj w) (w_heap w) _)) P2) as (ms & A & B & C). exists ms. cbn [told app]. split; [exact A|]. split; [exact B|].
        intros path Hp. rewrite C by (intros y l' I; apply (Hp y l'); right; exact I). cbn [w_env e_fs]. rewrite fs_get_set_neq; [reflexivity|]. apply (Hp x l). left. reflexivity.
  Qed.
End Run.
