(** Lemmas about the construction of the design matrix. *)
From Coq Require Import String List Arith Bool Lia Reals Lra Sorting.Sorted.
From Verif Require Import Base BaseLemmas Num Interp InterpReal Utils Sed Response RespDict Fitter FitSpec FitterProofs
  FitterMC.
Import ListNotations.

Section Gen.
  Context {T : Type} {N : Num T}.
  Variable cub : list T -> list T -> T -> T.

  (** The dependence of project(wave, flux) on the rows of flux. *)
  Lemma project_arr_rows r wave w : exists E : res (option ((list T -> T) * T)), forall rows, rect w rows ->
    project_arr cub r (vec wave) (table w rows) =
    match E with
    | Raise e => Raise e
    | Ok None => Ok (scal n0)
    | Ok (Some (num, den)) =>
      if Nat.eqb (length rows) 1 then Ok (scal (ndiv (num (hd [] rows)) den))
      else Ok (mk [length rows] (map (fun s => ndiv (cst (num s)) den) rows))
    end.
  Proof.
    set (x := map cst wave). set (p := argsort x). set (xs := map (fun k => nth k x n0) p).
    set (perm := fun s : list T => map (fun k => nth k (map cst s) n0) p).
    exists (if Nat.eqb w (length x) then
              if Nat.leb 4 (length x) then
                if negb (has_dup xs) then
                  match p_wave r with
                  | None => Raise TypeError
                  | Some rw =>
                    match where_ (in_band rw x) with
                    | [] => Ok None
                    | _ => match p_interp r with
                           | None => Raise TypeError
                           | Some rint =>
                             let g := grid_of rw x in
                             let rr := map (reval cub rint) g in
                             Ok (Some (fun s => swapped g (integrand (map (ieval1 cub xs (perm s)) g) rr g),
                                       swapped g (integrand (sed_ab g) rr g)))
                           end
                    end
                  end
                else Raise ValueError
              else Raise ValueError
            else Raise ValueError).
    intros rows Hr. unfold project_arr. rewrite map1_table. unfold map1, vec, table; cbn [shp dat ndim length].
    fold x. cbn [Nat.eqb negb hd]. change (Nat.leb 2 2) with true. cbv iota. change (lastd [length (map (map cst) rows); w]) with w.
    replace (length wave) with (length x) by (unfold x; rewrite map_length; auto).
    destruct (Nat.eqb_spec w (length x)) as [Hw|]; auto.
    unfold mk_cubic. cbn [ndim shp length Nat.eqb negb]. change (lastd [length (map (map cst) rows); w]) with w.
    rewrite <- Hw, Nat.eqb_refl. rewrite Hw.
    destruct (Nat.leb 4 (length x)); auto. fold p xs. destruct (negb (has_dup xs)); auto. cbn [bind].
    destruct (p_wave r) as [rw|]; auto. unfold project_core.
    destruct (where_ (in_band rw x)) eqn:EW; auto.
    destruct (p_interp r) as [rint|]; auto. cbn [ieval ix iys].
    rewrite <- Hw. fold (table w (map (map cst) rows)).
    rewrite lrows_table by (apply rect_map; auto). rewrite map_length.
    unfold ieval; cbn [ix iys]. rewrite !map_map.
    destruct (Nat.eqb_spec (length rows) 1) as [H1|H1].
    - destruct rows as [|s [|]]; try discriminate. cbn [map hd]. reflexivity.
    - reflexivity.
  Qed.

  Lemma bto_scal_rep (x : T) n : bto n0 [n] (scal x) = Ok (repeat x n).
  Proof. rewrite bto_scal. unfold size; cbn. rewrite Nat.mul_1_r. auto. Qed.

  Lemma firstn_skipn_length A (rows : list A) i e : (i <= e <= length rows)%nat ->
    length (firstn (e - i) (skipn i rows)) = (e - i)%nat.
  Proof. intro H. rewrite firstn_length, skipn_length. lia. Qed.

  Lemma flux_rows_table w (rows : list (list T)) i e : rect w rows -> (i <= e <= length rows)%nat ->
    flux_rows (table w rows) i e = table w (firstn (e - i) (skipn i rows)).
  Proof.
    intros Hr H. unfold flux_rows, table; cbn [shp dat tl]. unfold size; cbn [fold_right]. rewrite Nat.mul_1_r.
    rewrite firstn_skipn_length by auto. f_equal.
    assert (HC : forall k (l : list (list T)), rect w l -> firstn (k * w) (concat l) = concat (firstn k l)).
    { intros k. induction k as [|k IH]; intros l Hl; [auto|]. destruct l as [|a l]; [cbn; rewrite firstn_nil; auto|].
      inversion Hl; subst. cbn [concat firstn Nat.mul]. rewrite firstn_app, firstn_all2 by lia.
      f_equal. replace (length a + k * length a - length a)%nat with (k * length a)%nat by lia. apply IH; auto. }
    assert (HS : forall k (l : list (list T)), rect w l -> skipn (k * w) (concat l) = concat (skipn k l)).
    { intros k. induction k as [|k IH]; intros l Hl; [auto|]. destruct l as [|a l]; [cbn; rewrite skipn_nil; auto|].
      inversion Hl; subst. cbn [concat skipn Nat.mul]. rewrite skipn_app, skipn_all2 by lia. cbn [app].
      replace (length a + k * length a - length a)%nat with (k * length a)%nat by lia. apply IH; auto. }
    rewrite HS by auto. apply HC. unfold rect in *. rewrite <- (firstn_skipn i rows), Forall_app in Hr. tauto.
  Qed.

  (** Filling a row group by group. *)
  Lemma fill_groups (E : exn) (f : nat -> nat -> res (list T)) (final : list T) nchunk n :
    (0 < nchunk)%nat -> length final = n ->
    (forall i, (i < n)%nat -> f i (Nat.min (i + nchunk) n) = Ok (firstn (Nat.min (i + nchunk) n - i) (skipn i final))) ->
    foldM (fun row i => do vs <- f i (Nat.min (i + nchunk) n); Ok (splice i (Nat.min (i + nchunk) n) vs row))
          (chunk_starts nchunk n) (repeat n0 n) = Ok final.
  Proof.
    intros Hc Hl Hf. unfold chunk_starts. set (K := ((n + nchunk - 1) / nchunk)%nat).
    assert (HK : (n <= K * nchunk /\ (K - 1) * nchunk < n \/ K = 0 /\ n = 0)%nat).
    { pose proof (Nat.div_mod (n + nchunk - 1) nchunk ltac:(lia)) as Hd. fold K in Hd.
      pose proof (Nat.mod_upper_bound (n + nchunk - 1) nchunk ltac:(lia)).
      destruct K as [|K]; [right; lia|]. left. cbn [Nat.sub]. rewrite Nat.sub_0_r. nia. }
    assert (G : forall m k row, (k + m = K)%nat -> length row = n -> firstn (k * nchunk) row = firstn (k * nchunk) final ->
      foldM (fun row i => do vs <- f i (Nat.min (i + nchunk) n); Ok (splice i (Nat.min (i + nchunk) n) vs row))
            (map (fun k => (k * nchunk)%nat) (seq k m)) row = Ok final).
    { induction m as [|m IH]; intros k row Hk Hlr Hp; cbn [seq map foldM].
      - f_equal. rewrite <- (firstn_all2 (n := k * nchunk) row), <- (firstn_all2 (n := k * nchunk) final); auto; nia.
      - assert (Hlt : (k * nchunk < n)%nat) by nia.
        rewrite Hf by auto. cbn [bind]. apply IH; [lia| |].
        + unfold splice. rewrite !app_length, firstn_skipn_length, firstn_length, skipn_length by lia. lia.
        + set (e := Nat.min (k * nchunk + nchunk) n).
          assert (L1 : length (firstn (k * nchunk) row ++ firstn (e - k * nchunk) (skipn (k * nchunk) final)) = e).
          { rewrite app_length, firstn_skipn_length, firstn_length by lia. lia. }
          unfold splice. rewrite app_assoc.
          assert (E1 : firstn (k * nchunk) row ++ firstn (e - k * nchunk) (skipn (k * nchunk) final) = firstn e final).
          { rewrite Hp. rewrite <- (firstn_skipn (k * nchunk) (firstn e final)).
            rewrite firstn_firstn, skipn_firstn_comm. f_equal. f_equal. lia. }
          rewrite E1. replace (S k * nchunk)%nat with (k * nchunk + nchunk)%nat by lia.
          rewrite firstn_app, firstn_firstn, firstn_length, Hl.
          destruct (Nat.le_gt_cases (k * nchunk + nchunk) n).
          * replace (k * nchunk + nchunk - Nat.min e n)%nat with 0%nat by lia. cbn [firstn]. rewrite app_nil_r. f_equal. lia.
          * rewrite (skipn_all2 row) by lia. rewrite firstn_nil, app_nil_r, (firstn_all2 final) by lia.
            symmetry. apply firstn_all2. lia. }
    apply (G K 0%nat); auto. rewrite repeat_length; auto.
  Qed.

  (** Projecting all rows at once and storing the result in a float32 row. *)
  Definition project_all r wave (flux : nd T) : res (list T) :=
    do v <- project_arr cub r (vec wave) flux; rmap (map cst) (bto n0 [hd 0%nat (shp flux)] v).

  Lemma foldM_ext A S (f g : S -> A -> res S) l s : (forall s x, In x l -> f s x = g s x) -> foldM f l s = foldM g l s.
  Proof.
    revert s; induction l as [|x l IH]; intros s H; cbn [foldM]; auto. rewrite H by (left; auto).
    destruct (g s x); cbn [bind]; auto. apply IH. intros; apply H; right; auto.
  Qed.

  Lemma chunk_starts_lt nchunk n i : (0 < nchunk)%nat -> In i (chunk_starts nchunk n) -> (i < n /\ exists k, i = k * nchunk)%nat.
  Proof.
    intros Hc H. unfold chunk_starts in H. apply in_map_iff in H as (k & <- & Hk). apply in_seq in Hk.
    pose proof (Nat.div_mod (n + nchunk - 1) nchunk ltac:(lia)).
    pose proof (Nat.mod_upper_bound (n + nchunk - 1) nchunk ltac:(lia)). split; [nia|eauto].
  Qed.

  Lemma chunks_equal nchunk r s w rows : (0 < nchunk)%nat -> s_flux s = table w rows -> rect w rows ->
    s_nsed s = length rows -> rows <> [] ->
    ((forall x : T, cst x = x) \/ length rows = 1%nat \/ (nchunk <> 1 /\ length rows mod nchunk <> 1)%nat) ->
    project_chunks cub nchunk r s = project_all r (s_wave s) (s_flux s).
  Proof.
    intros Hc Hs Hr Hn Hne Hcase. unfold project_chunks, project_all. rewrite Hs, Hn. cbn [table shp hd].
    destruct (project_arr_rows r (s_wave s) w) as (E & HE). rewrite (HE rows Hr).
    set (n := length rows) in *. assert (Hn0 : (0 < n)%nat) by (unfold n; destruct rows; [congruence|cbn; lia]).
    set (step := fun (row : list T) (i : nat) => _).
    destruct E as [[[num den]|]|e].
    - (* values *)
      set (h := fun s => if Nat.eqb n 1 then cst (ndiv (num s) den) else cst (ndiv (cst (num s)) den)).
      transitivity (Ok (map h rows)).
      2:{ unfold h, n. destruct (Nat.eqb_spec (length rows) 1) as [H1|H1].
          - cbn [bind]. destruct rows as [|a [|]]; try discriminate. cbn [hd length]. rewrite bto_scal_rep. reflexivity.
          - cbn [bind]. rewrite bto_vec by (cbn [shp dat]; rewrite ?map_length; auto). cbn [rmap dat]. rewrite map_map. auto. }
      rewrite <- (fill_groups ValueError (fun i e => Ok (map h (firstn (e - i) (skipn i rows)))) (map h rows) nchunk n); auto.
      2:{ rewrite map_length; auto. }
      2:{ intros. f_equal. rewrite skipn_map, firstn_map. auto. }
      apply foldM_ext. intros row i Hi. apply chunk_starts_lt in Hi as (Hi & k & Hk); auto. unfold step.
      set (e := Nat.min (i + nchunk) n). cbn [bind].
      rewrite flux_rows_table by (auto; unfold n in *; lia).
      set (part := firstn (e - i) (skipn i rows)).
      assert (Lp : length part = (e - i)%nat) by (unfold part; apply firstn_skipn_length; unfold n in *; lia).
      assert (Rp : rect w part).
      { unfold part, rect in *. rewrite <- (firstn_skipn i rows), Forall_app in Hr. destruct Hr as [_ Hr].
        rewrite <- (firstn_skipn (e - i) (skipn i rows)), Forall_app in Hr. tauto. }
      rewrite (HE part Rp), Lp.
      assert (Eh : (n <> 1%nat -> (e - i = 1)%nat -> forall x : T, cst x = x)).
      { intros H1 H2. destruct Hcase as [?|[?|[Hc1 Hm]]]; auto; [congruence|]. exfalso.
        assert (e = n) by (unfold e in *; lia). assert (n = k * nchunk + 1)%nat by lia.
        apply Hm. fold n. rewrite H0, Nat.add_comm, Nat.mod_add by lia. apply Nat.mod_small. lia. }
      destruct (Nat.eqb_spec (e - i) 1) as [H1|H1].
      + cbn [bind]. rewrite bto_scal_rep. cbn [bind]. f_equal. f_equal. rewrite H1. cbn [repeat map].
        destruct part as [|a [|]]; try (cbn in Lp; lia). cbn [hd map]. unfold h.
        destruct (Nat.eqb_spec n 1) as [Hn1|Hn1]; auto. rewrite !(Eh Hn1 H1). auto.
      + cbn [bind]. rewrite bto_vec by (cbn [shp dat]; rewrite ?map_length; auto). cbn [bind dat]. f_equal. f_equal.
        rewrite map_map. apply map_ext. intro a. unfold h. destruct (Nat.eqb_spec n 1) as [Hn1|Hn1]; auto.
        exfalso. unfold e in *. lia.
    - (* no overlap *)
      cbn [bind]. rewrite bto_scal_rep. cbn [rmap].
      rewrite <- (fill_groups ValueError (fun i e => Ok (repeat (cst n0) (e - i))) (map cst (repeat n0 n)) nchunk n); auto.
      2:{ rewrite map_length, repeat_length; auto. }
      2:{ intros. f_equal. set (a := (Nat.min (i + nchunk) n - i)%nat).
          assert (X : forall a b (x : T), (a <= b)%nat -> firstn a (repeat x b) = repeat x a).
          { clear. induction a; intros [|b] x H; cbn; auto; try lia. f_equal. apply IHa. lia. }
          assert (Y : forall a b (x : T), skipn a (repeat x b) = repeat x (b - a)).
          { clear. induction a; intros [|b] x; cbn; auto. }
          assert (Z : map cst (repeat n0 n) = repeat (cst n0) n).
          { clear. induction n; cbn; congruence. }
          rewrite Z, Y, X by (unfold a; lia). auto. }
      apply foldM_ext. intros row i Hi. apply chunk_starts_lt in Hi as (Hi & k & Hk); auto. unfold step.
      rewrite flux_rows_table by (auto; unfold n in *; lia).
      rewrite HE.
      2:{ unfold rect in *. rewrite <- (firstn_skipn i rows), Forall_app in Hr. destruct Hr as [_ Hr].
        rewrite <- (firstn_skipn (Nat.min (i + nchunk) n - i) (skipn i rows)), Forall_app in Hr. tauto. }
      cbn [bind]. rewrite bto_scal_rep. cbn [bind]. f_equal. f_equal.
      clear. induction (Nat.min (i + nchunk) n - i)%nat; cbn; congruence.
    - (* exception *)
      cbn [bind].
      assert (X : exists l, chunk_starts nchunk n = 0%nat :: l).
      { unfold chunk_starts. assert (1 <= (n + nchunk - 1) / nchunk)%nat by (apply Nat.div_le_lower_bound; lia).
        destruct ((n + nchunk - 1) / nchunk)%nat eqn:EK; [lia|]. cbn [seq map Nat.mul]. eauto. }
      destruct X as [l ->]. cbn [foldM]. unfold step at 1.
      rewrite flux_rows_table by (auto; unfold n in *; lia). rewrite HE; auto.
      unfold rect in *. rewrite Nat.sub_0_r. cbn [skipn].
      rewrite <- (firstn_skipn (Nat.min (0 + nchunk) n) rows), Forall_app in Hr. tauto.
  Qed.

  (** * The loop over the grid *)
  (** The state of the templates [s] after a successful set_redshift z. *)
  Definition at_z (s : sed T) (z : T) (s' : sed T) : Prop :=
    s_rwave s' = s_rwave s /\ s_rflux s' = s_rflux s /\ s_flag s' = s_flag s /\ s_bin s' = s_bin s /\ s_z s' = z /\
    s_wave s' = map (fun w => nmul w (nadd n1 z)) (s_rwave s) /\
    s_flux s' = map1 (fun f => ndiv f (nadd n1 z)) (s_rflux s) /\
    (s_flag s = true -> exists it, mk_cubic (s_wave s') (s_flux s') = Ok it /\ s_interp s' = Some it).

  Lemma set_redshift_at_z s z s' : set_redshift s z = (s', None) -> at_z s z s'.
  Proof.
    unfold set_redshift, at_z. destruct (s_flag s) eqn:Ef.
    - unfold set_interp; cbn [s_wave s_flux]. destruct (mk_cubic _ _) eqn:E; [|discriminate].
      intro H; injection H as <-. cbn. repeat split; auto. intros _. eauto.
    - intro H; injection H as <-. cbn. repeat split; auto. discriminate.
  Qed.

  Lemma z_loop_spec d names : forall zs s s' tab, z_loop cub d names zs s = (s', Ok tab) ->
    length tab = length zs /\ s_rwave s' = s_rwave s /\ s_rflux s' = s_rflux s /\ s_flag s' = s_flag s /\ s_bin s' = s_bin s /\
    forall k, (k < length zs)%nat -> exists sk rows, at_z s (nth k zs n0) sk /\
      project_bands cub d names sk = Ok rows /\ nth k tab [] = concat rows.
  Proof.
    induction zs as [|z zs IH]; intros s s' tab H; cbn [z_loop] in H.
    - injection H as <- <-. repeat split; auto. cbn; intros; lia.
    - destruct (set_redshift s z) as [s1 [e|]] eqn:E; [discriminate|].
      apply set_redshift_at_z in E. destruct (project_bands cub d names s1) as [rows|] eqn:EP; [|discriminate].
      destruct (z_loop cub d names zs s1) as [s2 t] eqn:EZ. destruct t as [l|]; cbn [bind] in H; [|discriminate].
      injection H as <- <-. apply IH in EZ as (L & R1 & R2 & R3 & R4 & Hk).
      pose proof E as (E1 & E2 & E3 & E4 & _). cbn [length]. repeat split; try congruence.
      intros [|k] Hlt.
      + exists s1, rows. cbn [nth]. auto.
      + destruct (Hk k ltac:(lia)) as (sk & rw & A1 & A2 & A3). exists sk, rw. cbn [nth]. split; auto.
        destruct A1 as (B1 & B2 & B3 & B4 & B5 & B6 & B7 & B8). unfold at_z. rewrite E1 in *. rewrite E2 in *. rewrite E3 in *.
        rewrite E4 in *. auto 12.
  Qed.

  (** interp1d of a grid that is already in order. *)
  Definition in_order (x : list T) : Prop := StronglySorted (fun a b => nltb b a = false) x.

  Lemma isort_in_order A (key : A -> T) (l : list A) :
    StronglySorted (fun a b => nltb (key b) (key a) = false) l -> isort key l = l.
  Proof.
    induction 1 as [|a l Hl IH Hf]; cbn [isort]; auto. rewrite IH. destruct l as [|b l]; auto.
    cbn [insert]. inversion Hf; subst. rewrite H1. auto.
  Qed.
  Lemma argsort_in_order x : in_order x -> argsort x = seq 0 (length x).
  Proof.
    intro H. unfold argsort. rewrite isort_in_order.
    - apply map_snd_combine. rewrite seq_length; auto.
    - unfold in_order in H. revert H. generalize 0%nat. induction x as [|a x IH]; intros k H; cbn [length seq combine]; [constructor|].
      inversion H as [|? ? H1 H2]; subst. constructor; auto. rewrite Forall_forall in *. intros [b i] Hin. cbn.
      apply H2. eapply in_combine_l; eauto.
  Qed.
  Lemma map_nth_seq A (d : A) l : map (fun k => nth k l d) (seq 0 (length l)) = l.
  Proof.
    apply nth_error_ext. intro i. destruct (Nat.lt_ge_cases i (length l)).
    - rewrite nth_error_nth_lt with (d := d) by (rewrite map_length, seq_length; auto).
      rewrite (nth_error_nth_lt l d) by auto. f_equal.
      rewrite nth_indep with (d' := nth 0%nat l d) by (rewrite map_length, seq_length; auto).
      rewrite map_nth with (d := 0%nat) (f := fun k => nth k l d). rewrite seq_nth by auto. auto.
    - rewrite (proj2 (nth_error_None _ _)) by (rewrite map_length, seq_length; auto).
      symmetry; apply nth_error_None; auto.
  Qed.
  Lemma mk_linear_in_order x nb nt tab : in_order x -> length tab = length x -> x <> [] -> rect (nb * nt) tab ->
    mk_linear x (mk [length x; nb; nt] (concat tab)) = Ok {| a_x := x; a_rows := tab; a_shape := [nb; nt] |}.
  Proof.
    intros Ho Hl Hx Hr. unfold mk_linear; cbn [shp dat]. rewrite Nat.eqb_refl.
    destruct x as [|a x]; [congruence|]. set (y := a :: x) in *. cbn [length Nat.eqb negb].
    rewrite argsort_in_order by auto. rewrite map_nth_seq. f_equal. f_equal.
    assert (E : chunks (length y) (size [nb; nt]) (concat tab) = tab).
    { rewrite <- Hl. unfold size; cbn [fold_right]. rewrite Nat.mul_1_r. apply chunks_concat.
      unfold rect in Hr. rewrite Forall_forall in Hr. auto. }
    change (length y) with (S (length x)) in *. cbn [Nat.eqb negb].
    f_equal. rewrite E. rewrite <- Hl, map_nth_seq. auto.
  Qed.

  (** The result of project_row is as long as the number of templates. *)
  Lemma bto_length_1 n v l : bto (@n0 T N) [n] v = Ok l -> length l = n.
  Proof.
    unfold bto. destruct (bshape _ _); [|discriminate]. destruct (shape_eqb _ _); [|discriminate].
    intro H; injection H as <-. rewrite map_length, seq_length. unfold size; cbn. lia.
  Qed.
  Lemma project_row_length r s l : project_row cub r s = Ok l -> length l = s_nsed s.
  Proof.
    unfold project_row. destruct (s_flag s).
    - destruct (project_sed cub r s); [|discriminate]. cbn [bind].
      destruct (bto n0 [s_nsed s] a) eqn:E; [|discriminate]. cbn [rmap]. intro H; injection H as <-.
      rewrite map_length. eapply bto_length_1; eauto.
    - unfold project_chunks. assert (Hc : (0 < 1000)%nat) by lia. revert Hc. generalize 1000%nat. intros c Hc H.
      eapply foldM_inv with (P := fun row : list T => length row = s_nsed s) in H; auto.
      { rewrite repeat_length; auto. }
      intros row i row' Hi Hrow Hs. cbv beta in Hs. apply bind_ok in Hs as (v & Hv & Hs). apply bind_ok in Hs as (vs & Hvs & Hs).
      injection Hs as <-. apply bto_length_1 in Hvs. apply chunk_starts_lt in Hi as (Hi & _); auto.
      unfold splice. rewrite !app_length, map_length, firstn_length, skipn_length. lia.
  Qed.
  Lemma project_bands_rect d names s rows : project_bands cub d names s = Ok rows ->
    length rows = length names /\ rect (s_nsed s) rows /\
    forall j n, nth_error names j = Some n -> exists r row, dget d n = Some r /\ project_row cub r s = Ok row /\
      nth_error rows j = Some row.
  Proof.
    intro H. unfold project_bands in H. split; [eapply mapM_ok_length; eauto|].
    assert (X : forall j n, nth_error names j = Some n -> exists r row, dget d n = Some r /\ project_row cub r s = Ok row /\
      nth_error rows j = Some row).
    { intros j n Hn. apply (mapM_ok_nth _ _ H) in Hn as (y & Hy & E). destruct (dget d n) as [r|]; [|discriminate]. eauto. }
    split; auto. apply Forall_forall. intros row Hin. apply In_nth_error in Hin as [j Hj].
    assert (Hlt : (j < length names)%nat).
    { rewrite <- (mapM_ok_length _ _ H). apply nth_error_Some. congruence. }
    destruct (nth_error names j) as [n|] eqn:En; [|apply nth_error_None in En; lia].
    destruct (X j n En) as (r & row' & _ & Hp & Hr). rewrite Hj in Hr. injection Hr as ->. eapply project_row_length; eauto.
  Qed.
End Gen.
