(** The tests of the repository (test/**/*.cpp) run on the model, as a check of the model.  The tests named Sample with no
    more than PASS() in them are left out.  Texts of JSON_STRING are what the preprocessor makes of the argument: one space where there
    is white space. *)
From Coq Require Import String List NArith ZArith Bool.
From Verif Require Import Outcome CharModel StrModel Expected JsonData JsonParse Double FloatText SpecStr JsonProps Stream File FileShare.
Import ListNotations.
Local Open Scope list_scope.
Local Open Scope N_scope.
Local Notation "a +++ b" := (String.append a b) (at level 60, right associativity).

(** test/Core/Error: Expected<Int32, String> *)
Definition exp := expected Z Str.
Definition error_message : exp := Expected.Error (str "Error message").
Definition correct (z : Z) : outcome exp := Ok (Expected.Value z).
Definition holds (r : outcome exp) (z : Z) : Prop := exists x, r = Ok x /\ has_value x = true /\ get x = Ok z.
Example test_AndThen : holds (and_then (fun v => correct (v * 2)) (Expected.Value 42%Z)) 84.
Proof. eexists. repeat split. Qed.
Example test_CatchError : holds (catch_error (fun e => correct (Z.of_nat (s_size e))) error_message) 13.
Proof. eexists. repeat split. Qed.
Example test_ConstructorError : has_error error_message = true /\ get_error error_message = Ok (str "Error message").
Proof. split; reflexivity. Qed.
Example test_ConstructorSuccess : holds (correct 64) 64.
Proof. eexists. repeat split. Qed.
Example test_Customize :
  holds (customize (fun r => if has_value r then v <- get r ;; correct (v * 2) else Ok (Expected.Error (str "Custom error"))) (Expected.Value 42%Z : exp)) 84.
Proof. eexists. repeat split. Qed.
Example test_Fold :
  Expected.fold 10%Z (fun acc v => Ok (acc + v)%Z) (Expected.Value 42%Z : exp) = Ok 52%Z /\
  Expected.fold 10%Z (fun acc v => Ok (acc + v)%Z) error_message = Ok 10%Z.
Proof. split; reflexivity. Qed.
Example test_Inspect :
  Expected.inspect (fun v => Ok (v =? 42)%Z) (fun _ => Throw ELogicError) (Expected.Value 42%Z : exp) = Ok true /\
  Expected.inspect (fun _ => Throw ELogicError) (fun e => Ok (s_eqb e (str "Error message"))) error_message = Ok true.
Proof. split; reflexivity. Qed.
Example test_MapError : exists x, map_error (fun e => s_plus e (str " fixed")) error_message = Ok x /\
  has_error x = true /\ get_error x = Ok (str "Error message fixed").
Proof. eexists. repeat split. Qed.
Example test_Map : holds (emap (fun v => Ok (v + 1)%Z) (Expected.Value 42%Z)) 43.
Proof. eexists. repeat split. Qed.
Example test_OnError : on_error (fun e => if s_eqb e (str "Error message") then Ok tt else Throw ELogicError) error_message = Ok error_message.
Proof. reflexivity. Qed.
Example test_OrElse : holds (or_else (fun _ => correct 42) error_message) 42.
Proof. eexists. repeat split. Qed.
Example test_Then : holds (then_ (fun v => correct (v * 2)) (Expected.Value 42%Z)) 84.
Proof. eexists. repeat split. Qed.
Example test_Unwrap : unwrap_or_else (fun _ => Ok 42%Z) error_message = Ok 42%Z /\ unwrap_or (fun z => Ok z) 42%Z error_message = Ok 42%Z.
Proof. split; reflexivity. Qed.

(** test/Core/String/StringTest.cpp *)
Definition world : list N := [0xE4; 0xB8; 0x96; 0xE7; 0x95; 0x8C].
Definition smile : list N := [0xF0; 0x9F; 0x99; 0x82].
Definition melon : list N := [0xF0; 0x9F; 0x8D; 0x89].
Definition hello : list N := lit "Hello, " ++ world ++ lit "! " ++ smile.
Definition of_lit (b : list N) : outcome Str := string_of_cstr (b ++ [0]).
Example test_String :
  (data <- of_lit hello ;; w <- of_lit world ;; s <- s_substring data 7 2 ;; Ok (s_eqb w s)) = Ok true /\
  (data <- of_lit hello ;; p <- of_lit (lit "Hello") ;; s_starts_with data p) = Ok true /\
  (data <- of_lit hello ;; p <- of_lit smile ;; s_ends_with data p) = Ok true /\
  (data <- of_lit hello ;; p <- of_lit world ;; Ok (s_contains data p)) = Ok true /\
  (data <- of_lit hello ;; p <- of_lit (firstn 3 world) ;; s_find data p 0) = Ok (Some 7%nat) /\
  (data <- of_lit hello ;; p <- of_lit smile ;; s_find data p 0) = Ok (Some 11%nat) /\
  (data <- of_lit hello ;; p <- of_lit (lit " ") ;; s_reverse_find data p size_max) = Ok (Some 10%nat) /\
  (data <- of_lit hello ;; Ok (s_size data, s_byte_count data)) = Ok (12%nat, 19%nat) /\
  (data <- of_lit hello ;; a <- s_at data 1 ;; b <- s_at data 9 ;; Ok (a, b)) = Ok (lit "e", lit "!") /\
  (data <- of_lit hello ;; p <- of_lit melon ;; s_ends_with (map (fun c => if bytes_eqb c smile then melon else c) data) p) = Ok true.
Proof. vm_compute. repeat split. Qed.

(** test/Serializing/Json *)
Definition jzero : dbl := Finite false 0 0.
Definition jdoc (b : list N) : outcome (@document dbl) := doc_parse_bytes jzero stod_float b.
Definition quoted (s : string) : string := String (Ascii.ascii_of_nat 34) s +++ String (Ascii.ascii_of_nat 34) EmptyString.
Definition q := quoted.
Definition person : list N := lit ("{ " +++ q "name" +++ ": {" +++ q "first" +++ ": " +++ q "John" +++ ", " +++ q "last" +++ ": " +++ q "Doe" +++
  "}, " +++ q "age" +++ ": 30, " +++ q "address" +++ ": {" +++ q "street" +++ ": " +++ q "123 Main St" +++ ", " +++ q "city" +++ ": " +++ q "Anytown" +++ ", " +++
  q "zip" +++ ": " +++ q "12345" +++ "}, " +++ q "phone_numbers" +++ ": [" +++ q "555-1234" +++ ", " +++ q "555-5678" +++ "] }").
Definition config_text : list N := lit ("{ " +++ q "name" +++ ": " +++ q "John Doe" +++ ", " +++ q "age" +++ ": 30, " +++ q "array" +++ ": [], " +++ q "object" +++ ": {}, " +++
  q "is_student" +++ ": false, " +++ q "address" +++ ": {" +++ q "street" +++ ": " +++ q "123 Main St" +++ ", " +++ q "city" +++ ": " +++ q "Anytown" +++ ", " +++ q "zip" +++ ": " +++ q "12345" +++ "}, " +++
  q "phone_numbers" +++ ": [" +++ q "555-1234" +++ ", " +++ q "555-5678" +++ "], " +++ q "skills" +++ ": [" +++ q "C++" +++ ", " +++ q "Python" +++ ", " +++ q "JSON" +++ "], " +++
  q "education" +++ ": {" +++ q "highschool" +++ ": " +++ q "Anytown High School" +++ ", " +++ q "university" +++ ": {" +++ q "name" +++ ": " +++ q "State University" +++ ", " +++ q "graduation_year" +++ ": 2020}}, " +++
  q "projects" +++ ": [ {" +++ q "title" +++ ": " +++ q "Project One" +++ ", " +++ q "description" +++ ": " +++ q "Description of Project One" +++ "}, {" +++
  q "title" +++ ": " +++ q "Project Two" +++ ", " +++ q "description" +++ ": " +++ q "Description of Project Two" +++ "} ] }").
Definition has_error_of (b : list N) : outcome bool := d <- jdoc b ;; Ok (doc_has_error d).
Example test_CorrectJsonMacro : has_error_of config_text = Ok false.
Proof. vm_compute. reflexivity. Qed.
Example test_InitNative : has_error_of person = Ok false.
Proof. vm_compute. reflexivity. Qed.
Example test_TrailingComma :
  has_error_of (lit ("{" +++ q "key" +++ " : " +++ q "value" +++ ",}")) = Ok true /\
  has_error_of (lit ("{" +++ q "key" +++ ": [1, 2, 3, 4, 5,]}")) = Ok true.
Proof. split; vm_compute; reflexivity. Qed.
Example test_UnexpectedChars :
  has_error_of (lit ("unexpected {" +++ q "name" +++ ": " +++ q "John Doe" +++ ", " +++ q "age" +++ ": 30}")) = Ok true /\
  has_error_of (lit ("{" +++ q "name" +++ ": " +++ q "John Doe" +++ ", " +++ q "age" +++ ": 30} unexpected")) = Ok true.
Proof. split; vm_compute; reflexivity. Qed.
(** operator<< and operator>> through a file *)
Example test_IoOperator :
  (o <- jdoc person ;; t <- doc_to_string float_to_stream o false 2 ;; i <- jdoc (s_str t) ;; u <- doc_to_string float_to_stream i false 2 ;;
   Ok (doc_has_error o, doc_has_error i, s_eqb t u)) = Ok (false, false, true).
Proof. vm_compute. reflexivity. Qed.
(** Documents built with operator[]; each agrees with the document of the text. *)
Definition js (s : string) : json dbl := JStr (str s).
Definition set_std (s : string) (v : json dbl) : json dbl := fst ((assign_std jzero) v (lit s)).
Definition obj_fields (fs : list (string * (json dbl -> json dbl))) (v : json dbl) : json dbl :=
  fold_left (fun v kf => (update_key jzero) v (str (fst kf)) (snd kf)) fs v.
Definition to (x : json dbl) (fs : list (string * (json dbl -> json dbl))) : json dbl -> json dbl := fun _ => obj_fields fs x.
Definition address_fields := [("street", set_std "123 Main St"); ("city", set_std "Anytown"); ("zip", set_std "12345")]%string.
Definition bracket_doc : @document dbl :=
  fold_left (fun d kf => (doc_update jzero) d (str (fst kf)) (snd kf))
    [("name", to (make_object jzero) [("first", set_std "John"); ("last", set_std "Doe")]); ("age", fun v => (assign_int jzero) v 30);
     ("address", to (make_object jzero) address_fields); ("phone_numbers", fun _ => (make_array jzero) [js "555-1234"; js "555-5678"])]%string (doc_default jzero).
Example test_InitBracketOperator : doc_has_error bracket_doc = false /\
  (o <- jdoc person ;; t <- doc_to_string float_to_stream o true 2 ;; u <- doc_to_string float_to_stream bracket_doc true 2 ;; Ok (s_eqb t u)) = Ok true.
Proof. split; [reflexivity|]. vm_compute. reflexivity. Qed.
Definition project (i : nat) (t d : string) (v : json dbl) : json dbl :=
  match (update_pos jzero) v i (fun x => obj_fields [("title", set_std t); ("description", set_std d)]%string x) with Ok r => r | _ => v end.
Definition macro_doc : @document dbl :=
  fold_left (fun d kf => (doc_update jzero) d (str (fst kf)) (snd kf))
    [("name", set_std "John Doe"); ("age", fun v => (assign_int jzero) v 30); ("array", fun _ => (make_array jzero) []); ("object", fun _ => (make_object jzero));
     ("is_student", fun v => (assign_bool jzero) v false); ("address", to (make_object jzero) address_fields);
     ("phone_numbers", fun _ => (make_array jzero) []); ("phone_numbers", fun v => (append jzero) v [js "555-1234"; js "555-5678"]);
     ("skills", fun _ => (make_array jzero) [js "C++"; js "Python"; js "JSON"]);
     ("education", to (make_object jzero) [("highschool", set_std "Anytown High School");
        ("university", to (make_object jzero) [("name", set_std "State University"); ("graduation_year", fun v => (assign_int jzero) v 2020)])]);
     ("projects", fun _ => (make_array jzero) []); ("projects", fun v => (append jzero) v [(make_object jzero); (make_object jzero)]);
     ("projects", project 0 "Project One" "Description of Project One");
     ("projects", project 1 "Project Two" "Description of Project Two")]%string (doc_default jzero).
Example test_CorrectJsonMacroDocument : doc_has_error macro_doc = false /\
  (o <- jdoc config_text ;; t <- doc_to_string float_to_stream o true 2 ;; u <- doc_to_string float_to_stream macro_doc true 2 ;; Ok (s_eqb t u)) = Ok true.
Proof. split; [reflexivity|]. vm_compute. reflexivity. Qed.
