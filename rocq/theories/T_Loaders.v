(** Executable checks of the loaders on the repository's own model files
    (rankeval/test/data/, expectations of test/model/test_proxy_*.py).  The long header
    lines of the LightGBM file are left out. *)
From Coq Require Import Ascii String List ZArith QArith Qabs Bool.
From Verif Require Import Base Num M_Text M_Dataset M_Svmlight M_Ensemble M_Loaders M_TextLoaders M_Float.
Import ListNotations.
Local Open Scope Z_scope.

(** "~" stands for a tab. *)
Definition tab (l : string) : text := map (fun c => if Ascii.eqb c "~" then ascii_of_nat 9 else c) (lit l) ++ [newline].
(** The value of a float32. *)
Definition q32 (o : Z) : Q := (inject_Z (sval o) / inject_Z (2 ^ 149))%Q.
Definition close (digits : Z) (a : list F32N) (b : list Q) : bool :=
  Nat.eqb (length a) (length b) &&
  forallb (fun p => Qle_bool (Qabs (q32 (fst p) - snd p)) (1 # Z.to_pos (10 ^ digits))) (combine a b).
Definition arrays_of (r : res (ensemble F32N)) : option (list Z * list Z * list Z * list Z) :=
  match r with Ok e => Some (e_root e, e_feature e, e_left e, e_right e) | Err _ => None end.
Definition values_of (r : res (ensemble F32N)) : list F32N := match r with Ok e => e_value e | Err _ => [] end.
Definition weights_of (r : res (ensemble F32N)) : list F32N := match r with Ok e => e_weight e | Err _ => [] end.

Definition quick_xml : xml :=
  Elem "ranker"%string [] (Some [newline]) [Elem "info"%string [] (Some [newline]) [Elem "type"%string [] (Some (lit "MART"%string)) []; Elem "trees"%string [] (Some (lit "2"%string)) []; Elem "leaves"%string [] (Some (lit "3"%string)) []; Elem "shrinkage"%string [] (Some (lit "0.10000000149011612"%string)) []; Elem "leafsupport"%string [] (Some (lit "1"%string)) []; Elem "discretization"%string [] (Some (lit "0"%string)) []; Elem "estop"%string [] (Some (lit "100"%string)) []]; Elem "ensemble"%string [] (Some [newline]) [Elem "tree"%string [("id"%string, lit "1"%string); ("weight"%string, lit "0.10000000149011612"%string)] (Some [newline]) [Elem "split"%string [] (Some [newline]) [Elem "feature"%string [] (Some (lit "108"%string)) []; Elem "threshold"%string [] (Some (lit "14.895151138305664"%string)) []; Elem "split"%string [("pos"%string, lit "left"%string)] (Some [newline]) [Elem "feature"%string [] (Some (lit "115"%string)) []; Elem "threshold"%string [] (Some (lit "-8.0245580673217773"%string)) []; Elem "split"%string [("pos"%string, lit "left"%string)] (Some [newline]) [Elem "output"%string [] (Some (lit "0.3412887828162291"%string)) []]; Elem "split"%string [("pos"%string, lit "right"%string)] (Some [newline]) [Elem "output"%string [] (Some (lit "0.66845277963831218"%string)) []]]; Elem "split"%string [("pos"%string, lit "right"%string)] (Some [newline]) [Elem "output"%string [] (Some (lit "0.96317280453257792"%string)) []]]]; Elem "tree"%string [("id"%string, lit "2"%string); ("weight"%string, lit "0.10000000149011612"%string)] (Some [newline]) [Elem "split"%string [] (Some [newline]) [Elem "feature"%string [] (Some (lit "8"%string)) []; Elem "threshold"%string [] (Some (lit "0.66666698455810547"%string)) []; Elem "split"%string [("pos"%string, lit "left"%string)] (Some [newline]) [Elem "output"%string [] (Some (lit "0.37133907932286642"%string)) []]; Elem "split"%string [("pos"%string, lit "right"%string)] (Some [newline]) [Elem "feature"%string [] (Some (lit "106"%string)) []; Elem "threshold"%string [] (Some (lit "17.135160446166992"%string)) []; Elem "split"%string [("pos"%string, lit "left"%string)] (Some [newline]) [Elem "output"%string [] (Some (lit "0.54762687170967062"%string)) []]; Elem "split"%string [("pos"%string, lit "right"%string)] (Some [newline]) [Elem "output"%string [] (Some (lit "0.98651670670179537"%string)) []]]]]]].
Example t_quick : arrays_of (quick_load rd32 quick_xml)
  = Some ([0; 5], [107; 114; -1; -1; -1; 7; -1; 105; -1; -1],
          [1; 2; -1; -1; -1; 6; -1; 8; -1; -1], [4; 3; -1; -1; -1; 7; -1; 9; -1; -1]).
Proof. vm_compute. reflexivity. Qed.
Example t_quick_values :
  close 6 (values_of (quick_load rd32 quick_xml))
    [14.895151138305664; -8.0245580673217773; 0.3412887828162291; 0.66845277963831218; 0.96317280453257792;
     0.66666698455810547; 0.37133907932286642; 17.135160446166992; 0.54762687170967062; 0.98651670670179537]%Q
  && close 6 (weights_of (quick_load rd32 quick_xml)) [0.1; 0.1]%Q = true.
Proof. vm_compute. reflexivity. Qed.

Definition jforests_xml : xml :=
  Elem "Ensemble"%string [] (Some [newline]) [Elem "Tree"%string [("leaves"%string, lit "7"%string); ("weight"%string, lit "1.0"%string)] (Some [newline]) [Elem "SplitFeatures"%string [] (Some (lit "129 129 107 72 55 54"%string)) []; Elem "LeftChildren"%string [] (Some (lit "1 3 5 -1 -3 -2"%string)) []; Elem "RightChildren"%string [] (Some (lit "2 4 -4 -5 -6 -7"%string)) []; Elem "Thresholds"%string [] (Some (lit "14884 14826 11171 485 320 1214"%string)) []; Elem "OriginalThresholds"%string [] (Some (lit "268.00791914235936 265.01449371350714 13.917409408136482 19.112358794482084 0.009766221082829762 0.018525300616492706"%string)) []; Elem "LeafOutputs"%string [] (Some (lit "-1.2156555533251343 -0.2370371246276912 -1.9329095710207922 0.8030836898094491 -0.010194310883442196 -1.939557007673878 0.584062922565639"%string)) []]; Elem "Tree"%string [("leaves"%string, lit "7"%string); ("weight"%string, lit "1.0"%string)] (Some [newline]) [Elem "SplitFeatures"%string [] (Some (lit "133 72 105 130 62 121"%string)) []; Elem "LeftChildren"%string [] (Some (lit "1 4 -3 -4 -1 -6"%string)) []; Elem "RightChildren"%string [] (Some (lit "-2 2 3 -5 5 -7"%string)) []; Elem "Thresholds"%string [] (Some (lit "0 543 7553 15359 10922 31960"%string)) []; Elem "OriginalThresholds"%string [] (Some (lit "0.0 21.397960464750046 13.263678873222243 181.01421193338518 0.3333333333333333 -1.5976164200695848"%string)) []; Elem "LeafOutputs"%string [] (Some (lit "-0.14431346869079953 1.3819800608689703 1.770799198202688 1.7353641847897887 0.22409245535128064 -0.3769555284258838 -1.793789588633319"%string)) []]].
Example t_jforests : arrays_of (jf_load rd32 jforests_xml)
  = Some ([0; 13],
          [129; 129; 107; 72; 55; 54; -1; -1; -1; -1; -1; -1; -1; 133; 72; 105; 130; 62; 121; -1; -1; -1; -1; -1; -1; -1],
          [1; 3; 5; 6; 8; 7; -1; -1; -1; -1; -1; -1; -1; 14; 17; 21; 22; 19; 24; -1; -1; -1; -1; -1; -1; -1],
          [2; 4; 9; 10; 11; 12; -1; -1; -1; -1; -1; -1; -1; 20; 15; 16; 23; 18; 25; -1; -1; -1; -1; -1; -1; -1]).
Proof. vm_compute. reflexivity. Qed.
Example t_jforests_values :
  close 3 (values_of (jf_load rd32 jforests_xml))
    [268.0079; 265.0144; 13.9174; 19.1123; 0.00976; 0.0185; -1.2156; -0.2370; -1.9329; 0.8030; -0.01019; -1.9395; 0.5840;
     0.0; 21.3979; 13.2636; 181.0142; 0.3333; -1.5976; -0.1443; 1.3819; 1.7707; 1.7353; 0.2240; -0.3769; -1.7937]%Q = true.
Proof. vm_compute. reflexivity. Qed.

Definition lgbm_txt : text := concat
  [tab "tree";
   tab "num_class=1";
   tab "num_tree_per_iteration=1";
   tab "label_index=0";
   tab "max_feature_idx=135";
   tab "objective=lambdarank";
   tab "";
   tab "Tree=0";
   tab "num_leaves=3";
   tab "split_feature=55 134";
   tab "split_gain=24.316440938511686 19.637733333720618";
   tab "threshold=0.0036310000577941537 206";
   tab "decision_type=2 2";
   tab "default_value=0 0";
   tab "left_child=-1 -2";
   tab "right_child=1 -3";
   tab "leaf_parent=0 1 1";
   tab "leaf_value=-0.03717880105550684 -0.00015711314723408512 0.03066546801204972";
   tab "leaf_count=328 4540 132";
   tab "internal_value=0 0.017716937701040228";
   tab "internal_count=5000 4672";
   tab "shrinkage=0.1";
   tab "has_categorical=0";
   tab "";
   tab "";
   tab "Tree=1";
   tab "num_leaves=3";
   tab "split_feature=133 48";
   tab "split_gain=2386.6406638072776 1066.9165015298936";
   tab "threshold=9.9999996826552254e-21 0.2330314964056015";
   tab "decision_type=2 2";
   tab "default_value=0 0";
   tab "left_child=1 -1";
   tab "right_child=-2 -3";
   tab "leaf_parent=1 0 1";
   tab "leaf_value=-0.0045894326568938319 0.034326154348027604 0.01791469712217866";
   tab "leaf_count=4507 158 335";
   tab "internal_value=0 -0.025416647783118203";
   tab "internal_count=5000 4842";
   tab "shrinkage=0.1";
   tab "has_categorical=0";
   tab "";
   tab "";
   tab "";
   tab "feature importances:";
   tab "Column_48=1";
   tab "Column_55=1";
   tab "Column_133=1";
   tab "Column_134=1";
   tab "";
   tab "pandas_categorical:null"].
Example t_lgbm : arrays_of (lgbm_load rd32 lgbm_txt)
  = Some ([0; 5], [55; 134; -1; -1; -1; 133; 48; -1; -1; -1], [2; 3; -1; -1; -1; 6; 7; -1; -1; -1],
          [1; 4; -1; -1; -1; 8; 9; -1; -1; -1]).
Proof. vm_compute. reflexivity. Qed.
Example t_lgbm_weights : close 6 (weights_of (lgbm_load rd32 lgbm_txt)) [1; 1]%Q = true.
Proof. vm_compute. reflexivity. Qed.

Definition xgb_txt : text := concat
  [tab "booster[0]:";
   tab "0:[f52<0.0444665] yes=1,no=2,missing=1";
   tab "~1:[f14<26.5] yes=3,no=4,missing=3";
   tab "~~3:leaf=0.0330693";
   tab "~~4:leaf=-0.0274553";
   tab "~2:[f17<23.1987] yes=5,no=6,missing=5";
   tab "~~5:leaf=0.0289187";
   tab "~~6:leaf=0.067713";
   tab "booster[1]:";
   tab "0:[f54<0.0035545] yes=1,no=2,missing=1";
   tab "~1:[f10<209.5] yes=3,no=4,missing=3";
   tab "~~3:leaf=-0.0018294";
   tab "~~4:leaf=-0.0425189";
   tab "~2:[f52<0.0444665] yes=5,no=6,missing=5";
   tab "~~5:leaf=0.00209278";
   tab "~~6:leaf=0.0306171"].
Example t_xgb : arrays_of (xgb_load rd32 lower32 xgb_txt)
  = Some ([0; 7], [52; 14; -1; -1; 17; -1; -1; 54; 10; -1; -1; 52; -1; -1],
          [1; 2; -1; -1; 5; -1; -1; 8; 9; -1; -1; 12; -1; -1], [4; 3; -1; -1; 6; -1; -1; 11; 10; -1; -1; 13; -1; -1]).
Proof. vm_compute. reflexivity. Qed.
Example t_xgb_values :
  close 5 (values_of (xgb_load rd32 lower32 xgb_txt))
    [0.0444665; 26.499998; 0.0330693; -0.0274553; 23.1987; 0.0289187; 0.067713;
     0.0035545; 209.499985; -0.0018294; -0.0425189; 0.0444665; 0.00209278; 0.0306171]%Q = true.
Proof. vm_compute. reflexivity. Qed.

Definition sk_txt : text := concat
  [tab "base_score=0.606000";
   tab "learning_rate=0.100000";
   tab "booster[0] [f54 f133]:";
   tab "~0:[f54<=0.005769]";
   tab "~~1:leaf=-0.226426222524";
   tab "~~2:[f133<=0.500000]";
   tab "~~~3:leaf=0.187204691788";
   tab "~~~4:leaf=0.905627900778";
   tab "booster[1] [f14 f52]:";
   tab "~0:[f52<=0.044467]";
   tab "~~1:[f14<=28.500000]";
   tab "~~~3:leaf=0.413148111893";
   tab "~~~4:leaf=-0.203144770188";
   tab "~~2:leaf=0.269475234496"].
Definition sk_ens (r : res (ensemble F32N * option F32N * option F32N)) : res (ensemble F32N) :=
  match r with Ok (e, _, _) => Ok e | Err x => Err x end.
Example t_sk : arrays_of (sk_ens (sk_load rd32 sk_txt))
  = Some ([0; 5], [54; -1; 133; -1; -1; 52; 14; -1; -1; -1], [1; -1; 3; -1; -1; 6; 8; -1; -1; -1],
          [2; -1; 4; -1; -1; 7; 9; -1; -1; -1]).
Proof. vm_compute. reflexivity. Qed.
Example t_sk_scores : match sk_load rd32 sk_txt with
  | Ok (_, Some b, Some l) => close 6 [b; l] [0.606; 0.1]%Q
  | _ => false end = true.
Proof. vm_compute. reflexivity. Qed.
