(** Proofs about the text of the drawings: writing. *)
From Coq Require Import Ascii String List ZArith Bool Lia.
From Verif Require Import Base Num M_Text M_Ensemble M_Graphviz M_Dot S_Svmlight S_Loaders S_Graphviz S_Dot L_Fixed L_Loaders.
Import ListNotations.
Local Open Scope Z_scope.

(** ** The writes *)
Section Writes.
Context {N : num}.
Variables (shown : Z -> N -> text) (percent : Z -> Z -> text) (paint : fill (N:=N) -> Z * Z * Z * Z).
Variables (e : ensemble N) (o : options) (y : style) (tid : Z) (counts : list (Z * Z)) (bd : bounds (N:=N)).
Notation itxt := (item_text shown percent paint (y_special y) (o_precision o)).
Notation wrec := (wrecurse shown percent paint e o y tid counts bd).

Lemma wb_ok {A B} (x : wres A) (k : A -> wres B) t a : x = (t, Ok a) -> wbind x k = (t ++ fst (k a), snd (k a)).
Proof. intros ->. reflexivity. Qed.
Lemma wb_err {A B} (x : wres A) (k : A -> wres B) t a : x = (t, Err a) -> wbind x k = (t, Err a).
Proof. intros ->. reflexivity. Qed.
Lemma wb_put {B} t (k : unit -> wres B) : wbind (wput t) k = (t ++ fst (k tt), snd (k tt)).
Proof. reflexivity. Qed.
Lemma wb_lift {A B} (a : A) (k : A -> wres B) : wbind (wlift (Ok a)) k = k a.
Proof. unfold wbind, wlift. cbn [fst snd]. destruct (k a). reflexivity. Qed.
Lemma wb_lift_err {A B} x (k : A -> wres B) : wbind (wlift (Err x)) k = ([], Err x).
Proof. reflexivity. Qed.
Lemma wb_ret {A B} (a : A) (k : A -> wres B) : wbind (wret a) k = k a.
Proof. apply wb_lift. Qed.

Lemma wrecurse_ok : forall fuel i p d items rk, recurse e o tid counts bd fuel i p d = Ok (items, rk) ->
  wrec fuel i p d = (concat (map itxt items), Ok rk).
Proof.
  induction fuel as [|f IH]; intros i p d items rk H; [discriminate|]. cbn [recurse] in H. cbn [wrecurse].
  destruct (match p with Some q => is_leaf_node e q | None => Ok false end) as [bad|]; cbn [bind] in H; [|discriminate]. rewrite wb_lift. destruct bad; [discriminate|].
  destruct (match o_max_depth o with None => true | Some m => d <=? m end).
  - destruct (is_leaf_node e i) as [leaf|]; cbn [bind] in H; [|discriminate]. rewrite wb_lift.
    destruct (describe e o counts bd i) as [b|]; cbn [bind] in H; [|discriminate]. rewrite wb_lift, wb_put.
    assert (A : exists arrow, (match p with
                    | None => Ok []
                    | Some q =>
                        do root <- py_get (e_root e) tid;
                        if root =? q then do l <- py_get (e_left e) q; Ok [Arrow q i (Some (l =? i))]
                        else Ok [Arrow q i None]
                    end) = Ok arrow /\
              match p with
                 | None => wret tt
                 | Some q =>
                     wbind (wput (show_Z q ++ lit " -> " ++ show_Z i)) (fun _ =>
                     wbind (wlift (py_get (e_root e) tid)) (fun root =>
                     wbind (if root =? q then
                                 wbind (wput (lit " [labeldistance=2.5, labelangle=")) (fun _ =>
                                 wbind (wlift (py_get (e_left e) q)) (fun l =>
                                 wput (if l =? i then lit "45, headlabel=""True""]" else lit "-45, headlabel=""False""]")))
                               else wret tt) (fun _ => wput stop)))
                 end = (concat (map itxt arrow), Ok tt)).
    { destruct p as [q|]; [|exists []; split; reflexivity].
      destruct (py_get (e_root e) tid) as [root|]; cbn [bind] in H |- *; [|discriminate].
      destruct (root =? q) eqn:RQ.
      - destruct (py_get (e_left e) q) as [l|]; cbn [bind] in H |- *; [|discriminate]. eexists. split; [reflexivity|].
        unfold wbind, wput, wlift, wret. cbn [fst snd]. rewrite ?RQ. cbn [fst snd map concat item_text]. unfold arrow_text. rewrite !app_nil_r. destruct (l =? i); rewrite <- !app_assoc; reflexivity.
      - eexists. split; [reflexivity|]. unfold wbind, wput, wlift, wret. cbn [fst snd]. rewrite ?RQ. cbn [fst snd map concat item_text]. unfold arrow_text. rewrite app_nil_r, <- !app_assoc. reflexivity. }
    destruct A as (arrow & A1 & A2). rewrite A1 in H. cbn [bind] in H. rewrite (wb_ok _ _ _ _ A2).
    destruct leaf.
    + injection H as <- <-. cbn [wret fst snd map concat item_text]. rewrite app_nil_r. reflexivity.
    + destruct (py_get (e_left e) i) as [l|]; cbn [bind] in H; [|discriminate]. rewrite wb_lift.
      destruct (recurse e o tid counts bd f l (Some i) (d + 1)) as [[x1 x2]|] eqn:E1; cbn [bind] in H; [|discriminate]. rewrite (wb_ok _ _ _ _ (IH _ _ _ _ _ E1)).
      destruct (py_get (e_right e) i) as [r|]; cbn [bind] in H; [|discriminate]. rewrite wb_lift.
      destruct (recurse e o tid counts bd f r (Some i) (d + 1)) as [[y1 y2]|] eqn:E2; cbn [bind] in H; [|discriminate]. rewrite (wb_ok _ _ _ _ (IH _ _ _ _ _ E2)).
      cbn [fst snd wret] in *. injection H as <- <-. cbn [map concat item_text]. rewrite !map_app, !concat_app, app_nil_r. reflexivity.
  - rewrite wb_put. destruct (negb (o_np_mapping o)); [discriminate|]. rewrite wb_lift, wb_put. injection H as <- <-.
    destruct p as [q|]; cbn [map concat item_text wret fst snd]; [rewrite wb_put|rewrite wb_ret]; cbn [fst snd wret]; rewrite ?app_nil_r, <- ?app_assoc; reflexivity.
Qed.

(** What has been written never ends with a closing brace. *)
Definition blank_text (t : text) : Prop := forallb is_space t = true.
Definition unfinished (t : text) : Prop := exists u c w, t = u ++ c :: w /\ c <> "}"%char /\ is_space c = false /\ blank_text w.
Lemma unfinished_app a b : unfinished b -> unfinished (a ++ b).
Proof. intros (u & c & w & -> & H). exists (a ++ u), c, w. split; [rewrite app_assoc; reflexivity|exact H]. Qed.
Lemma unfinished_stop a : unfinished (a ++ stop).
Proof. apply unfinished_app. exists [" "%char], ";"%char, [newline]. repeat split; discriminate. Qed.
Lemma unfinished_quote a : unfinished (a ++ lit """").
Proof. apply unfinished_app. exists [], """"%char, []. repeat split; discriminate. Qed.
Lemma unfinished_digits n : unfinished (show_Z n).
Proof.
  destruct (show_Z_dec n) as (sg & neg & ds & -> & _ & D & NE & _). apply unfinished_app. destruct (exists_last NE) as (u & c & ->).
  exists u, c, []. split; [reflexivity|]. unfold digits in D. rewrite Forall_app in D. destruct D as [_ D]. inversion D as [|? ? C _]; subst. cbn in C.
  repeat (destruct C as [<-|C]; [split; [discriminate|]; split; reflexivity|]). contradiction.
Qed.
Lemma unfinished_dots i f : unfinished (dots_text paint i f).
Proof.
  unfold dots_text. destruct f; cbn [fill_text]; rewrite ?app_nil_r.
  - change (lit " [label=""(...)""") with (lit " [label=""(...)" ++ lit """"). rewrite app_assoc. apply unfinished_quote.
  - change (lit ", fillcolor=""#ffffffff""") with (lit ", fillcolor=""#ffffffff" ++ lit """"). rewrite !app_assoc. apply unfinished_quote.
  - change (lit ", fillcolor=""#C0C0C0""") with (lit ", fillcolor=""#C0C0C0" ++ lit """"). rewrite !app_assoc. apply unfinished_quote.
  - rewrite !app_assoc. apply unfinished_quote.
  - rewrite !app_assoc. apply unfinished_quote.
Qed.
Lemma unfinished_box s prec i b : unfinished (box_text shown percent paint s prec i b).
Proof. unfold box_text. rewrite !app_assoc. apply unfinished_stop. Qed.
Lemma unfinished_arrow p c h : unfinished (arrow_text p c h).
Proof. unfold arrow_text. rewrite !app_assoc. apply unfinished_stop. Qed.
Definition loose (t : text) : Prop := t = [] \/ unfinished t.
Lemma loose_app a b : loose a -> loose b -> loose (a ++ b).
Proof. intros A [->|B]; [rewrite app_nil_r; exact A|right; apply unfinished_app, B]. Qed.
Lemma loose_items : forall l, (forall x, In x l -> match x with Rank _ _ => False | _ => True end) -> loose (concat (map itxt l)).
Proof.
  induction l as [|x l IH]; intros H; [left; reflexivity|]. cbn [map concat]. apply loose_app; [|apply IH; intros z Z; apply H; right; exact Z].
  right. specialize (H x (or_introl eq_refl)). destruct x; cbn [item_text]; [apply unfinished_box|rewrite !app_assoc; apply unfinished_stop|apply unfinished_arrow|contradiction].
Qed.
Lemma recurse_no_rank : forall fuel i p d items rk, recurse e o tid counts bd fuel i p d = Ok (items, rk) -> forall x, In x items -> match x with Rank _ _ => False | _ => True end.
Proof.
  induction fuel as [|f IH]; intros i p d items rk H; [discriminate|]. cbn [recurse] in H.
  destruct (match p with Some q => is_leaf_node e q | None => Ok false end) as [bad|]; cbn [bind] in H; [|discriminate]. destruct bad; [discriminate|].
  destruct (match o_max_depth o with None => true | Some m => d <=? m end).
  - destruct (is_leaf_node e i) as [leaf|]; cbn [bind] in H; [|discriminate].
    destruct (describe e o counts bd i) as [b|]; cbn [bind] in H; [|discriminate].
    destruct (match p with None => Ok [] | Some q => do root <- py_get (e_root e) tid; if root =? q then do l <- py_get (e_left e) q; Ok [Arrow q i (Some (l =? i))] else Ok [Arrow q i None] end) as [arrow|] eqn:A; cbn [bind] in H; [|discriminate].
    assert (AR : forall x : item N, In x arrow -> match x with Rank _ _ => False | _ => True end).
    { destruct p as [q|]; [|injection A as <-; intros x []]. destruct (py_get (e_root e) tid); cbn [bind] in A; [|discriminate].
      destruct (_ =? q); [destruct (py_get (e_left e) q); cbn [bind] in A; [|discriminate]|]; injection A as <-; intros x [<-|[]]; exact I. }
    destruct leaf.
    + injection H as <- <-. intros x [<-|X]; [exact I|exact (AR x X)].
    + destruct (py_get (e_left e) i) as [l|]; cbn [bind] in H; [|discriminate].
      destruct (recurse e o tid counts bd f l (Some i) (d + 1)) as [[x1 x2]|] eqn:E1; cbn [bind] in H; [|discriminate].
      destruct (py_get (e_right e) i) as [r|]; cbn [bind] in H; [|discriminate].
      destruct (recurse e o tid counts bd f r (Some i) (d + 1)) as [[y1 y2]|] eqn:E2; cbn [bind] in H; [|discriminate].
      cbn [fst snd] in H. injection H as <- <-. intros x [<-|X]; [exact I|]. apply in_app_or in X as [X|X]; [exact (AR x X)|]. apply in_app_or in X as [X|X]; [exact (IH _ _ _ _ _ E1 x X)|exact (IH _ _ _ _ _ E2 x X)].
  - destruct (negb (o_np_mapping o)); [discriminate|]. injection H as <- <-. intros x [<-|X]; [exact I|]. destruct p; [destruct X as [<-|[]]; exact I|destruct X].
Qed.

Lemma wrecurse_err : forall fuel i p d x, recurse e o tid counts bd fuel i p d = Err x -> exists t, wrec fuel i p d = (t, Err x) /\ loose t.
Proof.
  induction fuel as [|f IH]; intros i p d x H; [injection H as <-; exists []; split; [reflexivity|left; reflexivity]|]. cbn [recurse] in H. cbn [wrecurse].
  destruct (match p with Some q => is_leaf_node e q | None => Ok false end) as [bad|]; cbn [bind] in H; [|injection H as <-; exists []; split; [reflexivity|left; reflexivity]]. rewrite wb_lift.
  destruct bad; [injection H as <-; exists []; split; [reflexivity|left; reflexivity]|].
  destruct (match o_max_depth o with None => true | Some m => d <=? m end).
  - destruct (is_leaf_node e i) as [leaf|]; cbn [bind] in H; [|injection H as <-; exists []; split; [reflexivity|left; reflexivity]]. rewrite wb_lift.
    destruct (describe e o counts bd i) as [b|]; cbn [bind] in H; [|injection H as <-; exists []; split; [reflexivity|left; reflexivity]]. rewrite wb_lift, wb_put.
    set (w := match p with None => wret tt | Some _ => _ end).
    assert (A : (exists a t, (match p with
                    | None => Ok []
                    | Some q =>
                        do root <- py_get (e_root e) tid;
                        if root =? q then do l <- py_get (e_left e) q; Ok [Arrow q i (Some (l =? i))]
                        else Ok [Arrow q i None]
                    end : res (list (item N))) = Ok a /\ w = (t, Ok tt) /\ loose t) \/ 
                (exists t, (match p with
                    | None => Ok []
                    | Some q =>
                        do root <- py_get (e_root e) tid;
                        if root =? q then do l <- py_get (e_left e) q; Ok [Arrow q i (Some (l =? i))]
                        else Ok [Arrow q i None]
                    end : res (list (item N))) = Err x /\ w = (t, Err x) /\ loose t)).
    { subst w. destruct p as [q|]; [|left; exists [], []; split; [reflexivity|]; split; [reflexivity|left; reflexivity]].
      destruct (py_get (e_root e) tid) as [root|xx]; cbn [bind] in H |- *.
      2:{ right. injection H as <-. rewrite wb_put, wb_lift_err. cbn [fst snd]. eexists. split; [reflexivity|]. split; [reflexivity|]. right. rewrite app_nil_r, !app_assoc. apply unfinished_app, unfinished_digits. }
      destruct (root =? q) eqn:RQ.
      - destruct (py_get (e_left e) q) as [l|xx]; cbn [bind] in H |- *.
        2:{ right. injection H as <-. unfold wbind, wput, wlift, wret. cbn [fst snd]. rewrite ?RQ. cbn [fst snd]. eexists. split; [reflexivity|]. split; [reflexivity|]. cbn [fst]. rewrite app_nil_r. right. apply unfinished_app.
            exists (lit " [labeldistance=2.5, labelangle"), "="%char, []. repeat split; discriminate. }
        left. do 2 eexists. split; [reflexivity|]. unfold wbind, wput, wlift, wret. cbn [fst snd]. rewrite ?RQ. cbn [fst snd]. split; [reflexivity|]. right. rewrite !app_assoc. apply unfinished_stop.
      - left. do 2 eexists. split; [reflexivity|]. unfold wbind, wput, wlift, wret. cbn [fst snd]. rewrite ?RQ. cbn [fst snd]. split; [reflexivity|]. right. rewrite !app_assoc. apply unfinished_stop. }
    clearbody w. destruct A as [(a & t & A1 & A2 & A3)|(t & A1 & A2 & A3)].
    2:{ rewrite (wb_err _ _ _ _ A2). cbn [fst snd]. eexists. split; [reflexivity|]. apply loose_app; [right; apply unfinished_box|exact A3]. }
    rewrite A1 in H. cbn [bind] in H. rewrite (wb_ok _ _ _ _ A2).
    assert (B : loose (box_text shown percent paint (y_special y) (o_precision o) i b)) by (right; apply unfinished_box).
    destruct leaf; [discriminate|].
    destruct (py_get (e_left e) i) as [l|]; cbn [bind] in H.
    2:{ injection H as <-. eexists. split; [reflexivity|]. cbn [fst snd wbind wlift]. rewrite app_nil_r. apply loose_app; assumption. }
    rewrite wb_lift. destruct (recurse e o tid counts bd f l (Some i) (d + 1)) as [[x1 x2]|xx] eqn:E1; cbn [bind] in H.
    2:{ injection H as ->. destruct (IH _ _ _ _ E1) as (t1 & T1 & L1). rewrite (wb_err _ _ _ _ T1). cbn [fst snd]. eexists. split; [reflexivity|]. auto using loose_app. }
    rewrite (wb_ok _ _ _ _ (wrecurse_ok _ _ _ _ _ _ E1)). pose proof (loose_items x1 (recurse_no_rank _ _ _ _ _ _ E1)) as L1.
    destruct (py_get (e_right e) i) as [r|]; cbn [bind] in H.
    2:{ injection H as <-. eexists. split; [reflexivity|]. cbn [fst snd wbind wlift]. rewrite app_nil_r. auto using loose_app. }
    rewrite wb_lift. destruct (recurse e o tid counts bd f r (Some i) (d + 1)) as [[y1 y2]|xx] eqn:E2; cbn [bind] in H; [discriminate|].
    injection H as ->. destruct (IH _ _ _ _ E2) as (t2 & T2 & L2). rewrite (wb_err _ _ _ _ T2). cbn [fst snd]. eexists. split; [reflexivity|]. auto using loose_app.
  - rewrite wb_put. destruct (negb (o_np_mapping o)); [|discriminate]. injection H as <-. rewrite wb_lift_err. cbn [fst snd]. eexists. split; [reflexivity|]. rewrite app_nil_r. right. apply unfinished_dots.
Qed.
End Writes.

Section Export.
Context {N : num}.
Variables (shown : Z -> N -> text) (percent : Z -> Z -> text) (paint : fill (N:=N) -> Z * Z * Z * Z).
Lemma export_prepare (e : ensemble N) tid o : export_graphviz e tid o =
  do cb <- prepare e tid o; do root <- py_get (e_root e) tid;
  do x <- recurse e o tid (fst cb) (snd cb) (S (length (e_left e))) root None 0;
  Ok (fst x ++ if o_parallel o then rank_items (snd x) else []).
Proof.
  unfold export_graphviz, prepare. destruct (o_precision o <? 0); [reflexivity|]. destruct (match o_names o with Some _ => _ | None => _ end); [|reflexivity]. cbn [bind].
  destruct (e_ntrees e - 1 <? tid); reflexivity.
Qed.
Lemma unfinished_header y o : unfinished (header y o).
Proof.
  unfold header. destruct (y_rounded y), (o_parallel o); rewrite !app_assoc, ?app_nil_r; apply unfinished_stop.
Qed.
Theorem written_ok (e : ensemble N) tid o y items : export_graphviz e tid o = Ok items ->
  written shown percent paint e tid o y = (header y o ++ concat (map (item_text shown percent paint (y_special y) (o_precision o)) items) ++ lit "}", Ok tt).
Proof.
  rewrite export_prepare. unfold written. destruct (prepare e tid o) as [cb|]; cbn [bind]; [|discriminate]. intros H. rewrite wb_lift, wb_put.
  destruct (py_get (e_root e) tid) as [root|]; cbn [bind] in H; [|discriminate]. rewrite wb_lift.
  destruct (recurse _ _ _ _ _ _ _ _ _) as [[x rk]|] eqn:E; cbn [bind] in H; [|discriminate]. injection H as <-.
  rewrite (wb_ok _ _ _ _ (wrecurse_ok shown percent paint _ _ y _ _ _ _ _ _ _ _ _ E)), wb_put. cbn [fst snd wput]. f_equal. f_equal. rewrite map_app, concat_app, <- app_assoc. f_equal. f_equal.
  destruct (o_parallel o); reflexivity.
Qed.
Theorem written_err (e : ensemble N) tid o y x : export_graphviz e tid o = Err x ->
  exists t, written shown percent paint e tid o y = (t, Err x) /\ (t = [] /\ prepare e tid o = Err x \/ unfinished t).
Proof.
  rewrite export_prepare. unfold written. destruct (prepare e tid o) as [cb|]; cbn [bind].
  2:{ intros H. injection H as ->. exists []. split; [reflexivity|left; split; reflexivity]. }
  intros H. rewrite wb_lift, wb_put. destruct (py_get (e_root e) tid) as [root|]; cbn [bind] in H.
  2:{ injection H as <-. cbn [wbind wlift fst snd]. eexists. split; [reflexivity|]. right. rewrite app_nil_r. apply unfinished_header. }
  rewrite wb_lift. destruct (recurse _ _ _ _ _ _ _ _ _) as [[xx rk]|xx] eqn:E; cbn [bind] in H; [discriminate|]. injection H as ->.
  destruct (wrecurse_err shown percent paint _ _ y _ _ _ _ _ _ _ _ E) as (t & T & L). rewrite (wb_err _ _ _ _ T). cbn [fst snd]. eexists. split; [reflexivity|]. right.
  destruct L as [->|L]; [rewrite app_nil_r; apply unfinished_header|apply unfinished_app, L].
Qed.
End Export.
