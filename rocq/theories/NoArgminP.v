(** * Checkpoint files of the builds with and without argmin (C86) *)
From Coq Require Import ZArith NArith List Bool Arith Lia Ascii String.
From Verif Require Import F64 Base Builders Types Runner Codec NoArgmin SpecCheckpoint CodecP.
Import ListNotations.
Local Open Scope parser_scope.

(** ** The build reads its own files *)
Lemma rt_n_config : forall it st fr fa xr xa r, config_ok (CfgCOBYLA it st fr fa xr xa) ->
  n_dec_config (n_enc_config (CfgCOBYLA it st fr fa xr xa) ++ r) = Some (CfgCOBYLA it st fr fa xr xa, r).
Proof.
  intros it st fr fa xr xa r H. cbn [config_ok n_enc_config] in *. unfold n_dec_config.
  decompose [and] H. rewrite <- !app_assoc. go rt_tag. cbn [N.eqb]. gos.
Qed.
Lemma rt_n_params : rt (fun p => params_ok p /\ cobyla_only p) n_enc_params n_dec_params.
Proof.
  intros [a b c d e f g h] r [H [C1 (it & st & fr & fa & xr & xa & C2)]]. unfold params_ok in H. cbn in H, C1, C2. subst. decompose [and] H.
  unfold n_enc_params, n_dec_params. cbn [p_iterations p_population p_wait_cycle p_threshold_factor p_distance_factor
    p_solver_type p_solver_config p_seed]. rewrite <- !app_assoc. gos.
  unfold n_enc_solver, n_dec_solver, pbind. rewrite rt_tag by (vm_compute; reflexivity). cbn [N.eqb]. unfold pret at 1.
  rewrite rt_n_config by assumption. gos.
Qed.
Theorem rt_n_checkpoint : rt (fun c => checkpoint_ok c /\ cobyla_only (cp_params c)) n_enc_checkpoint n_dec_checkpoint.
Proof.
  intros [a b c d e f g h i j k l m n o p] r [H C]. unfold checkpoint_ok in H. cbn in H, C. decompose [and] H. clear H.
  unfold n_enc_checkpoint, n_dec_checkpoint.
  cbn [cp_params cp_iteration cp_threshold cp_solution_set cp_reference_set cp_unchanged cp_elapsed
       cp_df_solutions cp_seed cp_target cp_exclude_oob cp_batch cp_parallel cp_abs_tol cp_rel_tol cp_timestamp].
  rewrite <- !app_assoc. unfold pbind.
  rewrite rt_n_params by (split; assumption). gos.
  rewrite (rt_option _ _ _ rt_solset) by assumption.
  rewrite rt_refs by assumption. gos.
  rewrite (rt_vec _ _ _ (ne_lsol _) rt_lsol) by assumption. gos.
  rewrite rt_bool by exact I. rewrite (rt_option _ _ _ rt_usize) by assumption.
  rewrite rt_bool by exact I. gos. rewrite rt_string by assumption. reflexivity.
Qed.
Theorem mono_n_checkpoint : mono n_dec_checkpoint.
Proof.
  unfold n_dec_checkpoint, n_dec_params, dec_usize, n_dec_solver, n_dec_config, dec_solset, dec_lsol,
    dec_point, dec_option, dec_bool, dec_f64, dec_u64, dec_tag. monos.
Qed.
Theorem n_decode_encode : forall cp, checkpoint_ok cp -> cobyla_only (cp_params cp) -> n_decode_checkpoint (n_enc_checkpoint cp) = Some cp.
Proof.
  intros cp H C. unfold n_decode_checkpoint. pose proof (rt_n_checkpoint cp [] (conj H C)) as G. rewrite app_nil_r in G. rewrite G. reflexivity.
Qed.
Theorem n_decode_prefix : forall cp k, checkpoint_ok cp -> cobyla_only (cp_params cp) -> k < List.length (n_enc_checkpoint cp) ->
  n_decode_checkpoint (firstn k (n_enc_checkpoint cp)) = None.
Proof.
  intros cp k H C Hk. unfold n_decode_checkpoint.
  destruct (n_dec_checkpoint (firstn k (n_enc_checkpoint cp))) as [[a r]|] eqn:E; [|reflexivity]. exfalso.
  apply (mono_n_checkpoint _ _ _ (skipn k (n_enc_checkpoint cp))) in E. rewrite firstn_skipn in E.
  pose proof (rt_n_checkpoint cp [] (conj H C)) as G. rewrite app_nil_r in G. rewrite G in E.
  assert (L : skipn k (n_enc_checkpoint cp) = []).
  { injection E as _ E. symmetry in E. apply app_eq_nil in E. tauto. }
  apply (f_equal (@List.length _)) in L. rewrite skipn_length in L. revert L Hk.
  change (List.length (@nil ascii)) with 0. generalize (List.length (n_enc_checkpoint cp)). intros; lia.
Qed.

(** ** A parser that fails on a prefix-determined part *)
Lemma pb : forall A B (p : parser A) (f : A -> parser B) s, pbind p f s = match p s with None => None | Some (a, r) => f a r end.
Proof. reflexivity. Qed.
(** reading [k] bytes of a longer input *)
Lemma dec_le_any : forall k s, k <= List.length s -> exists n, dec_le k s = Some (n, skipn k s).
Proof.
  induction k; intros s H; [exists 0%N; reflexivity|]. destruct s as [|c s]; simpl in H; [lia|]. destruct (IHk s ltac:(lia)) as [n Hn].
  simpl. unfold pbind. rewrite Hn. eexists. reflexivity.
Qed.
Lemma dec_f64_any : forall s, 8 <= List.length s -> exists x, dec_f64 s = Some (x, skipn 8 s).
Proof. intros s H. destruct (dec_le_any 8 s H) as [n Hn]. unfold dec_f64, dec_u64, pbind. rewrite Hn. eexists. reflexivity. Qed.

(** ** Files of the full build in the build without argmin *)
Definition header (p : params) : bytes :=
  enc_usize (p_iterations p) ++ enc_usize (p_population p) ++ enc_usize (p_wait_cycle p) ++
  enc_f64 (p_threshold_factor p) ++ enc_f64 (p_distance_factor p).
Lemma enc_params_split : forall p, enc_params p = header p ++ enc_solver (p_solver_type p) ++ enc_config (p_solver_config p) ++ enc_u64 (p_seed p).
Proof. intro p. unfold enc_params, header. rewrite <- !app_assoc. reflexivity. Qed.
Lemma n_dec_header : forall p r, params_ok p -> n_dec_params (header p ++ r) =
  (f <~ n_dec_solver ;; g <~ n_dec_config ;; h <~ dec_u64 ;;
   pret (mk_params (p_iterations p) (p_population p) (p_wait_cycle p) (p_threshold_factor p) (p_distance_factor p) f g h)) r.
Proof.
  intros [a b c d e f g h] r H. unfold params_ok in H. cbn in H. decompose [and] H. unfold header, n_dec_params.
  cbn [p_iterations p_population p_wait_cycle p_threshold_factor p_distance_factor]. rewrite <- !app_assoc. gos.
Qed.
Lemma solver_tag_lt : forall t, (solver_tag t < 256 ^ 4)%N.
Proof. intros []; vm_compute; reflexivity. Qed.
Theorem other_solver_refused : forall cp, checkpoint_ok cp -> p_solver_type (cp_params cp) <> LBFGS ->
  n_decode_checkpoint (enc_checkpoint cp) = None.
Proof.
  intros cp H C. unfold n_decode_checkpoint, enc_checkpoint, n_dec_checkpoint. rewrite enc_params_split, <- !app_assoc.
  unfold pbind at 1. rewrite n_dec_header by apply H. unfold pbind at 1. unfold n_dec_solver. unfold pbind at 1. unfold enc_solver.
  rewrite rt_tag by apply solver_tag_lt. destruct (p_solver_type (cp_params cp)); try reflexivity. congruence.
Qed.
Definition is_lbfgs (c : solver_config) : bool := match c with CfgLBFGS _ _ _ _ _ _ => true | _ => false end.
Theorem other_config_refused : forall cp, checkpoint_ok cp -> is_lbfgs (p_solver_config (cp_params cp)) = false ->
  n_decode_checkpoint (enc_checkpoint cp) = None.
Proof.
  intros cp H C. unfold n_decode_checkpoint, enc_checkpoint, n_dec_checkpoint. rewrite enc_params_split, <- !app_assoc.
  unfold pbind at 1. rewrite n_dec_header by apply H. unfold pbind at 1. unfold n_dec_solver. unfold pbind at 1. unfold enc_solver.
  rewrite rt_tag by apply solver_tag_lt. destruct (solver_tag (p_solver_type (cp_params cp)) =? 0)%N; [|reflexivity]. unfold pret at 1.
  unfold pbind at 1. unfold n_dec_config. unfold pbind at 1.
  destruct (p_solver_config (cp_params cp)); try discriminate C; unfold enc_config; rewrite <- !app_assoc; rewrite rt_tag by (vm_compute; reflexivity); reflexivity.
Qed.

(** an L-BFGS configuration with the line search parameters set by default *)
Definition default_search (l : line_search) : Prop :=
  (exists w b, l = MoreThuente (lit 1 10000) (lit 9 10) w b) \/
  (exists e t g n b, l = HagerZhang (lit 1 10) (lit 9 10) e t g n b).
(** the first bytes of such a configuration from the L1 coefficient on, read as a relative
    tolerance and a list of absolute tolerances *)
Lemma default_bytes : forall l rest, default_search l -> exists hd tl x n,
  enc_option enc_f64 None ++ enc_ls l ++ rest = hd ++ tl /\ dec_f64 (hd ++ tl) = Some (x, skipn 8 hd ++ tl) /\
  dec_u64 (skipn 8 hd ++ tl) = Some (n, skipn 16 hd ++ tl) /\ (2 ^ 63 <= n)%N.
Proof.
  intros l rest [(w & b & ->)|(e & t & g & n & b & ->)]; unfold enc_ls.
  - set (hd := enc_option enc_f64 None ++ enc_tag 0 ++ enc_f64 (lit 1 10000) ++ enc_f64 (lit 9 10)).
    exists hd, ((enc_f64 w ++ enc_point b) ++ rest).
    let L := eval vm_compute in hd in assert (Hh : hd = L) by (vm_compute; reflexivity).
    eexists. eexists. split; [unfold hd; rewrite <- !app_assoc; reflexivity|]. rewrite Hh. cbn [skipn app].
    split; [reflexivity|]. split; [reflexivity|]. vm_compute. discriminate.
  - set (hd := enc_option enc_f64 None ++ enc_tag 1 ++ enc_f64 (lit 1 10) ++ enc_f64 (lit 9 10)).
    exists hd, ((enc_f64 e ++ enc_f64 t ++ enc_f64 g ++ enc_f64 n ++ enc_point b) ++ rest).
    let L := eval vm_compute in hd in assert (Hh : hd = L) by (vm_compute; reflexivity).
    eexists. eexists. split; [unfold hd; rewrite <- !app_assoc; reflexivity|]. rewrite Hh. cbn [skipn app].
    split; [reflexivity|]. split; [reflexivity|]. vm_compute. discriminate.
Qed.
Lemma dec_raw : forall n r, u64_ok n -> dec_f64 (enc_u64 n ++ r) = Some (of_bits n, r).
Proof. intros n r H. unfold dec_f64, pbind. rewrite rt_u64 by exact H. reflexivity. Qed.
Theorem default_lbfgs_refused : forall cp it tg tc h ls, checkpoint_ok cp ->
  p_solver_config (cp_params cp) = CfgLBFGS it tg tc h None ls -> default_search ls ->
  (N.of_nat (List.length (enc_checkpoint cp)) < 2 ^ 63)%N -> n_decode_checkpoint (enc_checkpoint cp) = None.
Proof.
  intros cp it tg tc h ls H C D L. unfold n_decode_checkpoint, n_dec_checkpoint. revert L. unfold enc_checkpoint. rewrite enc_params_split, <- !app_assoc.
  match goal with |- context [enc_u64 (p_seed (cp_params cp)) ++ ?r] => set (rest := enc_u64 (p_seed (cp_params cp)) ++ r) end.
  intro L. pose proof H as (H1 & _).
  unfold pbind at 1. rewrite n_dec_header by exact H1. unfold pbind at 1. unfold n_dec_solver. unfold pbind at 1. unfold enc_solver.
  rewrite rt_tag by apply solver_tag_lt. destruct (solver_tag (p_solver_type (cp_params cp)) =? 0)%N; [|reflexivity]. unfold pret at 1.
  unfold params_ok in H1. rewrite C in H1. cbn [config_ok] in H1. rewrite C in L |- *. unfold enc_config in L |- *. rewrite <- !app_assoc in L |- *.
  destruct (default_bytes ls rest D) as (hd & tl & x & n & B1 & B2 & B3 & B4). rewrite B1 in L |- *.
  decompose [and] H1. unfold pbind at 1. unfold n_dec_config. unfold pbind at 1. rewrite rt_tag by (vm_compute; reflexivity). cbn [N.eqb].
  unfold pbind at 1. rewrite rt_u64 by assumption. unfold pbind at 1. rewrite rt_f64 by assumption. unfold pbind at 1. rewrite rt_f64 by assumption.
  unfold pbind at 1. unfold enc_usize. rewrite dec_raw by assumption. unfold pbind at 1. rewrite B2. unfold pbind at 1. unfold dec_vec. unfold pbind at 1. rewrite B3.
  assert (G : (n <=? N.of_nat (List.length (skipn 16 hd ++ tl)))%N = false); [|rewrite G; reflexivity].
  apply N.leb_gt. revert L B4. rewrite !app_length, skipn_length. generalize (List.length hd) (List.length tl). intros; lia.
Qed.

(** ** Files of the build without argmin in the full build *)
Lemma dec_header : forall p r, params_ok p -> dec_params (header p ++ r) =
  (f <~ dec_solver ;; g <~ dec_config ;; h <~ dec_u64 ;;
   pret (mk_params (p_iterations p) (p_population p) (p_wait_cycle p) (p_threshold_factor p) (p_distance_factor p) f g h)) r.
Proof.
  intros [a b c d e f g h] r H. unfold params_ok in H. cbn in H. decompose [and] H. unfold header, dec_params.
  cbn [p_iterations p_population p_wait_cycle p_threshold_factor p_distance_factor]. rewrite <- !app_assoc. gos.
Qed.
(** a line search read at the end of a COBYLA configuration without parameter tolerances *)
Lemma no_bounds : forall seed iter r, (iter < 2 ^ 40)%N ->
  (l1 <~ dec_option dec_f64 ;; dec_ls) (enc_f64 f0 ++ enc_vec enc_f64 [] ++ enc_u64 seed ++ enc_u64 iter ++ r) = None.
Proof.
  intros seed iter r H.
  assert (Z : enc_f64 f0 ++ enc_vec enc_f64 [] = repeat (ascii_of_N 0) 16) by (vm_compute; reflexivity).
  rewrite app_assoc, Z. unfold enc_u64. set (z := ascii_of_N 0).
  assert (V : (iter / 256 / 256 / 256 / 256 / 256 = 0)%N).
  { rewrite !N.div_div by discriminate. apply N.div_small. exact H. }
  cbn [enc_le repeat app]. rewrite V.
  assert (T1 : forall l, dec_le 1 (z :: l) = Some (0%N, l)) by reflexivity.
  assert (T4 : forall l, dec_tag (z :: z :: z :: z :: l) = Some (0%N, l)) by reflexivity.
  unfold pbind at 1. unfold dec_option. unfold pbind at 1. rewrite T1. cbn [N.eqb]. unfold pret at 1.
  unfold dec_ls. unfold pbind at 1. rewrite T4. cbn [N.eqb].
  unfold pbind at 1. edestruct dec_f64_any as [c1 ->]; [cbn [List.length]; lia|]. cbn [skipn].
  unfold pbind at 1. edestruct dec_f64_any as [c2 ->]; [cbn [List.length]; lia|]. cbn [skipn].
  unfold pbind at 1. edestruct dec_f64_any as [w ->]; [cbn [List.length]; lia|]. cbn [skipn].
  unfold pbind at 1. unfold dec_point, dec_array. unfold pbind at 1. fold z. change (ascii_of_N (0 mod 256)) with z. rewrite T1. reflexivity.
Qed.
Theorem default_cobyla_refused : forall cp it st fr fa, checkpoint_ok cp -> p_solver_type (cp_params cp) = COBYLA ->
  p_solver_config (cp_params cp) = CfgCOBYLA it st fr fa f0 [] -> (N.of_nat (cp_iteration cp) < 2 ^ 40)%N ->
  decode_checkpoint (n_enc_checkpoint cp) = None.
Proof.
  intros cp it st fr fa H C1 C2 L. unfold decode_checkpoint, dec_checkpoint, n_enc_checkpoint, n_enc_params.
  rewrite C2. unfold n_enc_solver, n_enc_config. pose proof H as (H1 & _).
  assert (X : forall a b c d e r, enc_usize a ++ enc_usize b ++ enc_usize c ++ enc_f64 d ++ enc_f64 e ++ r = (enc_usize a ++ enc_usize b ++ enc_usize c ++ enc_f64 d ++ enc_f64 e) ++ r)
    by (intros; rewrite <- !app_assoc; reflexivity).
  rewrite X. fold (header (cp_params cp)). clear X. rewrite <- !app_assoc. unfold pbind at 1. rewrite dec_header by exact H1.
  unfold pbind at 1. unfold dec_solver. unfold pbind at 1. rewrite rt_tag by (vm_compute; reflexivity). cbn [N.eqb]. unfold pret at 1.
  unfold params_ok in H1. rewrite C2 in H1. cbn [config_ok] in H1. decompose [and] H1.
  unfold pbind at 1. unfold dec_config. unfold pbind at 1. rewrite rt_tag by (vm_compute; reflexivity). cbn [N.eqb].
  unfold pbind at 1. rewrite rt_u64 by assumption. unfold pbind at 1. rewrite rt_f64 by assumption. unfold pbind at 1. rewrite rt_f64 by assumption.
  unfold pbind at 1. unfold dec_usize at 1. unfold pbind at 1. unfold enc_f64 at 1. rewrite rt_u64 by (apply of_to_bits; assumption). unfold pret at 1.
  unfold enc_usize at 1.
  match goal with |- context [enc_f64 f0 ++ enc_vec enc_f64 [] ++ enc_u64 ?a ++ enc_u64 ?b ++ ?r] => pose proof (no_bounds a b r L) as N end.
  unfold pbind at 1 in N. unfold pbind at 1. destruct (dec_option dec_f64 _) as [[l1 r1]|]; [|reflexivity].
  unfold pbind at 1. rewrite N. reflexivity.
Qed.
Theorem n_names : forall s t, n_from_string s = Some t <-> t = COBYLA /\ from_string s = Some COBYLA.
Proof.
  intros s t. unfold n_from_string, from_string. cbv zeta. destruct (String.eqb_spec (to_lowercase s) "cobyla") as [->|N].
  - simpl. split; [intro H; injection H as <-; auto|intros [-> _]; reflexivity].
  - split; [discriminate|]. intros [_ H]. repeat match type of H with (if ?b then _ else _) = _ => destruct b; [discriminate H|] end. discriminate H.
Qed.
