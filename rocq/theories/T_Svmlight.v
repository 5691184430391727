(** Executable checks of the svmlight model on the repository's own test files
    (rankeval/test/data/svmlight_*.txt, expectations of test_svmlight_format.py). *)
From Coq Require Import Ascii String List ZArith QArith Bool.
From Verif Require Import Base M_Text M_Dataset M_Svmlight.
Import ListNotations.
Local Open Scope Z_scope.

Definition q_of (t : numtok) : Q :=
  match t with
  | Dec n m e => let v := (inject_Z m * Qpower 10 e)%Q in Qred (if n then - v else v)
  | _ => 0%Q
  end.
(** Rationals; only integers are printed. *)
Definition QF : fmt Q :=
  mkFmt 0%Q (fun t => Some (q_of t)) q_of (fun v => v) (fun v => show_Z (Qnum v)).

Definition nl : string := String newline EmptyString.
Definition unlines (l : list string) : text := lit (String.append (String.concat nl l) nl).

Definition datafile : text := unlines
  ["# comment"; "1.0 2:2.5     10:-5.2 15:1.5 # an inline comment"; "2.0 5:1.0 12:-3 ";
   "# another comment"; "3.0 20:27"]%string.
Definition qid_datafile : text := unlines
  ["# comment"; "1.0 qid:1 2:2.5     10:-5.2 15:0 # an inline comment";
   "2.0 qid:37 5:1.0 12:-3 33:0.7"; "0.0 qid:37 6:7 8:9 10:11"; "# another comment";
   "3.0 qid:12 20:27 22:30 23:40"]%string.
Definition invalidfile : text := unlines
  ["python 2:2.5 10:-5.2 15:1.5"; "2.0 5:1.0 12:-3"; "3.0 20:27"]%string.

Definition shape {A} (r : res (nat * list (list A) * list A * list Z)) :=
  match r with
  | Ok (nf, X, y, q) => Some (List.length X, nf, y, q)
  | Err _ => None
  end.

Example t_datafile :
  shape (load_svmlight_file QF datafile) = Some (3%nat, 20%nat, [1; 2; 3]%Q, []).
Proof. vm_compute. reflexivity. Qed.
Example t_qid_datafile :
  shape (load_svmlight_file QF qid_datafile) = Some (4%nat, 33%nat, [1; 2; 0; 3]%Q, [1; 37; 37; 12]).
Proof. vm_compute. reflexivity. Qed.
Example t_qid_cells : match load_svmlight_file QF qid_datafile with
  | Ok (_, X, _, _) => map (fun p => nth (snd p - 1)%nat (nth (fst p) X []) 0%Q)
      [(0,2); (0,10); (0,15); (0,33); (1,5); (1,33); (2,6); (2,8); (2,9); (3,20); (3,23); (3,24)]%nat
  | Err _ => [] end = [5#2; -26#5; 0; 0; 1; 7#10; 7; 9; 0; 27; 40; 0]%Q.
Proof. vm_compute. reflexivity. Qed.
Example t_invalid : load_svmlight_file QF invalidfile = Err RuntimeError.
Proof. vm_compute. reflexivity. Qed.
Example t_invalid2 : load_svmlight_files QF [datafile; invalidfile; datafile] = Err RuntimeError.
Proof. vm_compute. reflexivity. Qed.
Example t_numbers :
  map (fun s => istream_float (lit s)) ["-12.50e-1x"; "1e"; "."; "+.5"; " 7"; "inf"]%string
  = [Some (Dec true 1250 (-3), lit "x"); None; None; Some (Dec false 5 (-1), []);
     Some (Dec false 7 0, []); None].
Proof. vm_compute. reflexivity. Qed.
Example t_numbers2 :
  map (fun s => scan_double (lit s)) ["-12.50e-1x"; "1e"; "."; "1.e2"; "-iNf"; "infi"; "NANx"]%string
  = [Some (Dec true 1250 (-3)); Some (Dec false 1 0); None; Some (Dec false 1 2);
     Some (Inf true); None; Some NaN].
Proof. vm_compute. reflexivity. Qed.
Example t_uint :
  map (fun s => scan_uint (lit s)) ["12x"; "-5"; "4294967297"; "99999999999999999999"; "x"]%string
  = [Some (12, lit "x"); Some (-5, []); Some (1, []); Some (-1, []); None].
Proof. vm_compute. reflexivity. Qed.
Example t_show : map show_Z [0; 9; 10; 1234567890; -42] = map lit ["0"; "9"; "10"; "1234567890"; "-42"]%string.
Proof. vm_compute. reflexivity. Qed.
Example t_round_trip :
  (do f <- dump_svmlight_file QF false [[1; -2; 0]; [30; 4; 5]]%Q [3; 0]%Q [7; 7]; load_svmlight_file QF f)
  = Ok (3%nat, [[1; -2; 0]; [30; 4; 5]]%Q, [3; 0]%Q, [7; 7]).
Proof. vm_compute. reflexivity. Qed.
