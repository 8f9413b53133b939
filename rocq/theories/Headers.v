(** The headers of the library and what the preprocessor makes of a source file that includes them.
    Simplifications: only the includes with quotation marks (all of them unconditional, at the head of their header), the include
    guards and the definitions a header puts into every source file that the linker would see twice are kept; the headers of the
    standard library, the macros and the conditional parts of the headers are left out. *)
From Coq Require Import String List Bool Ascii NArith.
Import ListNotations.
Local Open Scope string_scope.
Local Open Scope list_scope.

(** A header: its path below include/, its include guard, the headers it includes, and the definitions with external linkage in
    it that are not inline, not templates and not members defined in their class *)
Inductive header := File (path : string) (guard : option string) (includes : list string) (definitions : list string).
Definition h_path (f : header) := let 'File p _ _ _ := f in p.
Definition h_guard (f : header) := let 'File _ g _ _ := f in g.
Definition h_includes (f : header) := let 'File _ _ i _ := f in i.
Definition h_definitions (f : header) := let 'File _ _ _ d := f in d.

(** File systems: whether a path is searched for as it is written, or regardless of upper and lower case *)
Inductive file_system := Sensitive | Insensitive.
Definition lower_char (c : ascii) : ascii :=
  let n := N_of_ascii c in if ((65 <=? n) && (n <=? 90))%N then ascii_of_N (n + 32) else c.
Fixpoint lower (s : string) : string := match s with EmptyString => EmptyString | String c s => String (lower_char c) (lower s) end.
Definition same_path (fs : file_system) (a b : string) : bool :=
  match fs with Sensitive => a =? b | Insensitive => lower a =? lower b end.
Definition lookup (fs : file_system) (files : list header) (path : string) : option header :=
  find (fun f => same_path fs (h_path f) path) files.

(** What the preprocessor gives: the headers whose texts are in the source file, in the order of their own texts, and the include
    guards that are defined; or the first path that is not found; [Deep] stands for includes nested deeper than the fuel. *)
Inductive pres := Done (texts : list header) (defined : list string) | Missing (path : string) | Deep.
Definition is_defined (defined : list string) (g : string) : bool := existsb (String.eqb g) defined.
Fixpoint include_all (inc : string -> list string -> pres) (paths : list string) (defined : list string) : pres :=
  match paths with
  | [] => Done [] defined
  | p :: rest =>
      match inc p defined with
      | Done t d => match include_all inc rest d with Done t' d' => Done (t ++ t') d' | r => r end
      | r => r
      end
  end.
Fixpoint include (fuel : nat) (fs : file_system) (files : list header) (path : string) (defined : list string) : pres :=
  match fuel with
  | O => Deep
  | S n =>
      match lookup fs files path with
      | None => Missing path
      | Some f =>
          let text d := match include_all (include n fs files) (h_includes f) d with Done t d' => Done (t ++ [f]) d' | r => r end in
          match h_guard f with
          | Some g => if is_defined defined g then Done [] defined else text (g :: defined)
          | None => text defined
          end
      end
  end.
(** The includes are nested less deep than there are headers *)
Definition preprocess (fs : file_system) (files : list header) (paths : list string) : pres :=
  include_all (include (S (List.length files)) fs files) paths [].

(** A program: for every source file the headers it includes. It is built when every source file is preprocessed and no
    definition is there twice ([basic.def.odr]; the linker reports it). *)
Definition texts_of (r : pres) : list header := match r with Done t _ => t | _ => [] end.
Definition compiled (r : pres) : bool := match r with Done _ _ => true | _ => false end.
Definition defined_in (fs : file_system) (files : list header) (unit_ : list string) : list string :=
  flat_map h_definitions (texts_of (preprocess fs files unit_)).
Definition builds (fs : file_system) (files : list header) (program : list (list string)) : Prop :=
  forallb (fun u => compiled (preprocess fs files u)) program = true /\ NoDup (flat_map (defined_in fs files) program).

(** The headers, in the order of their paths; at each its include guard, its includes and its definitions *)
Definition headers : list header := [
  (* Caitlyn/Algorithms 18-19 *)
  File "Caitlyn/Algorithms" None ["Caitlyn/__Caitlyn.h"; "Caitlyn/__Core/Algorithms.h"] [];
  (* Caitlyn/Caitlyn 18-36 *)
  File "Caitlyn/Caitlyn" None ["Caitlyn/__Caitlyn.h"; "Caitlyn/__Core/Algorithms.h"; "Caitlyn/__Core/Collections.h"; "Caitlyn/__Core/DateTime.h"; "Caitlyn/__Core/Error.h"; "Caitlyn/__Core/File.h"; "Caitlyn/__Core/IO.h"; "Caitlyn/__Core/Memory.h"; "Caitlyn/__Core/Numeric.h"; "Caitlyn/__Core/String.h"; "Caitlyn/__Core/System.h"; "Caitlyn/__Core/Threads.h"; "Caitlyn/__Core/Traits.h"; "Caitlyn/__Core/Utility.h"; "Caitlyn/__Numeric/Types.h"; "Caitlyn/__Serializing/Json.h"] [];
  (* Caitlyn/Char 18-19 *)
  File "Caitlyn/Char" None ["Caitlyn/__Caitlyn.h"; "Caitlyn/__Core/Char.h"] [];
  (* Caitlyn/Collections 18-19 *)
  File "Caitlyn/Collections" None ["Caitlyn/__Caitlyn.h"; "Caitlyn/__Core/Collections.h"] [];
  (* Caitlyn/DateTime 18-19 *)
  File "Caitlyn/DateTime" None ["Caitlyn/__Caitlyn.h"; "Caitlyn/__Core/DateTime.h"] [];
  (* Caitlyn/Error 18-19 *)
  File "Caitlyn/Error" None ["Caitlyn/__Caitlyn.h"; "Caitlyn/__Core/Error.h"] [];
  (* Caitlyn/File 18-19 *)
  File "Caitlyn/File" None ["Caitlyn/__Caitlyn.h"; "Caitlyn/__Core/File.h"] [];
  (* Caitlyn/IO 18-20 *)
  File "Caitlyn/IO" None ["Caitlyn/__Caitlyn.h"; "Caitlyn/__Core/File.h"; "Caitlyn/__Core/IO.h"] [];
  (* Caitlyn/Memory 18-19 *)
  File "Caitlyn/Memory" None ["Caitlyn/__Caitlyn.h"; "Caitlyn/__Core/Memory.h"] [];
  (* Caitlyn/Numeric 18-20 *)
  File "Caitlyn/Numeric" None ["Caitlyn/__Caitlyn.h"; "Caitlyn/__Core/Numeric.h"; "Caitlyn/__Numeric/Types.h"] [];
  (* Caitlyn/Serializing 18-19 *)
  File "Caitlyn/Serializing" None ["Caitlyn/__Caitlyn.h"; "Caitlyn/__Serializing/Json.h"] [];
  (* Caitlyn/String 18-19 *)
  File "Caitlyn/String" None ["Caitlyn/__Caitlyn.h"; "Caitlyn/__Core/String.h"] [];
  (* Caitlyn/System 18-19 *)
  File "Caitlyn/System" None ["Caitlyn/__Caitlyn.h"; "Caitlyn/__Core/System.h"] [];
  (* Caitlyn/Testing 18-20 *)
  File "Caitlyn/Testing" None ["Caitlyn/__Caitlyn.h"; "Caitlyn/__Testing/Macro.h"; "Caitlyn/__Testing/Types.h"] [];
  (* Caitlyn/Threading 18-19 *)
  File "Caitlyn/Threading" None ["Caitlyn/__Caitlyn.h"; "Caitlyn/__Core/Threads.h"] [];
  (* Caitlyn/Traits 18-19 *)
  File "Caitlyn/Traits" None ["Caitlyn/__Caitlyn.h"; "Caitlyn/__Core/Traits.h"] [];
  (* Caitlyn/Utility 18-19 *)
  File "Caitlyn/Utility" None ["Caitlyn/__Caitlyn.h"; "Caitlyn/__Core/Utility.h"] [];
  (* Caitlyn/__Base.h 18, 21-22 *)
  File "Caitlyn/__Base.h" (Some "CAITLYN_BASE_H_") ["Caitlyn/__Caitlyn/Config.h"; "Caitlyn/__Caitlyn/Types.h"] [];
  (* Caitlyn/__Caitlyn.h 18, 21 *)
  File "Caitlyn/__Caitlyn.h" (Some "CAITLYN_CAITLYN_H_") ["caitlyn/__caitlyn/application.h"] [];
  (* Caitlyn/__Caitlyn/Application.h 18, 26-27, 129, 130 *)
  File "Caitlyn/__Caitlyn/Application.h" (Some "CAITLYN_APPLICATION_H_") ["Caitlyn/__Caitlyn/Config.h"; "Caitlyn/__Caitlyn/Types.h"] ["Caitlyn::Application::application_"; "Caitlyn::Application::initialized_"];
  (* Caitlyn/__Caitlyn/Config.h 18, 189 *)
  File "Caitlyn/__Caitlyn/Config.h" (Some "CAITLYN_CONFIG_H_") ["Caitlyn/__Caitlyn/Namespace.h"] [];
  (* Caitlyn/__Caitlyn/Namespace.h 18 *)
  File "Caitlyn/__Caitlyn/Namespace.h" (Some "CAITLYN_NAMESPACE_H_") [] [];
  (* Caitlyn/__Caitlyn/Types.h 18, 21 *)
  File "Caitlyn/__Caitlyn/Types.h" (Some "CAITLYN_TYPES_H_") ["Caitlyn/__Caitlyn/Config.h"] [];
  (* Caitlyn/__Core/Algorithms.h 18, 23 *)
  File "Caitlyn/__Core/Algorithms.h" (Some "CAITLYN_CORE_ALGORITHMS_H_") ["Caitlyn/__Base.h"] [];
  (* Caitlyn/__Core/Char.h 18, 27-29 *)
  File "Caitlyn/__Core/Char.h" (Some "CAITLYN_CORE_CHAR_H_") ["Caitlyn/__Core/Char/Defs.h"; "Caitlyn/__Core/Char/Char.h"; "Caitlyn/__Core/Char/Utility.h"] [];
  (* Caitlyn/__Core/Char/Char.h 18, 26 *)
  File "Caitlyn/__Core/Char/Char.h" (Some "CAITLYN_CORE_CHAR_CHAR_H_") ["Caitlyn/__Base.h"] [];
  (* Caitlyn/__Core/Char/Defs.h 18, 21 *)
  File "Caitlyn/__Core/Char/Defs.h" (Some "CAITLYN_CORE_CHAR_DEFS_H_") ["Caitlyn/__Base.h"] [];
  (* Caitlyn/__Core/Char/Utility.h 18, 24 *)
  File "Caitlyn/__Core/Char/Utility.h" (Some "CAITLYN_CORE_CHAR_UTILITY_H_") ["Caitlyn/__Core/Char/Char.h"] [];
  (* Caitlyn/__Core/Collections.h 18, 33 *)
  File "Caitlyn/__Core/Collections.h" (Some "CAITLYN_CORE_COLLECTIONS_H_") ["Caitlyn/__Core/Collections/Utility.h"] [];
  (* Caitlyn/__Core/Collections/Utility.h 18, 21 *)
  File "Caitlyn/__Core/Collections/Utility.h" (Some "CAITLYN_CORE_COLLECTIONS_UTILITY_H_") ["Caitlyn/__Core/Collections/Utility/MapUtility.h"] [];
  (* Caitlyn/__Core/Collections/Utility/MapUtility.h 18, 24 *)
  File "Caitlyn/__Core/Collections/Utility/MapUtility.h" (Some "CAITLYN_CORE_COLLECTIONS_UTILITY_MAPUTILITY_H_") ["Caitlyn/__Base.h"] [];
  (* Caitlyn/__Core/Date.h 18 *)
  File "Caitlyn/__Core/Date.h" (Some "CAITLYN_CORE_DATE_H_") [] [];
  (* Caitlyn/__Core/DateTime.h 18, 21-23 *)
  File "Caitlyn/__Core/DateTime.h" (Some "CAITLYN_CORE_DATETIME_H_") ["Caitlyn/__Base.h"; "Caitlyn/__Core/Date.h"; "Caitlyn/__Core/Time.h"] [];
  (* Caitlyn/__Core/Error.h 18, 27-28 *)
  File "Caitlyn/__Core/Error.h" (Some "CAITLYN_CORE_ERROR_H_") ["Caitlyn/__Core/Error/Expected.h"; "Caitlyn/__Core/Error/Unexpected.h"] [];
  (* Caitlyn/__Core/Error/Expected.h 18, 25-27 *)
  File "Caitlyn/__Core/Error/Expected.h" (Some "CAITLYN_CORE_ERROR_EXPECTED_H_") ["Caitlyn/__Core/Error/Unexpected.h"; "Caitlyn/__Core/Traits.h"; "Caitlyn/__Core/Utility.h"] [];
  (* Caitlyn/__Core/Error/Unexpected.h 18, 21 *)
  File "Caitlyn/__Core/Error/Unexpected.h" (Some "CAITLYN_CORE_ERROR_UNEXPECTED_H_") ["Caitlyn/__Core/String.h"] [];
  (* Caitlyn/__Core/File.h 18, 23 *)
  File "Caitlyn/__Core/File.h" (Some "CAITLYN_CORE_FILE_H_") ["Caitlyn/__Core/File/File.h"] [];
  (* Caitlyn/__Core/File/File.h 18, 25 *)
  File "Caitlyn/__Core/File/File.h" (Some "CAITLYN_CORE_FILE_FILE_STREAM_H_") ["Caitlyn/__Core/String.h"] [];
  (* Caitlyn/__Core/IO.h 18, 28 *)
  File "Caitlyn/__Core/IO.h" (Some "CAITLYN_CORE_IO_H_") ["Caitlyn/__Core/IO/Stream.h"] [];
  (* Caitlyn/__Core/IO/Stream.h 18, 23-24 *)
  File "Caitlyn/__Core/IO/Stream.h" (Some "CAITLYN_CORE_IO_STREAM_H_") ["Caitlyn/__Core/String.h"; "Caitlyn/__Core/Traits.h"] [];
  (* Caitlyn/__Core/Memory.h 18, 25-26 *)
  File "Caitlyn/__Core/Memory.h" (Some "CAITLYN_CORE_MEMORY_H_") ["Caitlyn/__Core/Memory/Types.h"; "Caitlyn/__Core/Memory/Utility.h"] [];
  (* Caitlyn/__Core/Memory/Types.h 18, 21-26 *)
  File "Caitlyn/__Core/Memory/Types.h" (Some "CAITLYN_CORE_MEMORY_TYPES_H_") ["Caitlyn/__Core/Memory/Types/DataSize.h"; "Caitlyn/__Core/Memory/Types/MemoryFormat.h"; "Caitlyn/__Core/Memory/Types/RawPointer.h"; "Caitlyn/__Core/Memory/Types/SharedPointer.h"; "Caitlyn/__Core/Memory/Types/UniquePointer.h"; "Caitlyn/__Core/Memory/Types/WeakPointer.h"] [];
  (* Caitlyn/__Core/Memory/Types/DataSize.h 18, 21 *)
  File "Caitlyn/__Core/Memory/Types/DataSize.h" (Some "CAITLYN_CORE_MEMORY_TYPES_DATASIZE_H_") ["Caitlyn/__Base.h"] [];
  (* Caitlyn/__Core/Memory/Types/MemoryFormat.h 18, 21 *)
  File "Caitlyn/__Core/Memory/Types/MemoryFormat.h" (Some "CAITLYN_CORE_MEMORY_TYPES_MEMORYFORMAT_H_") ["Caitlyn/__Base.h"] [];
  (* Caitlyn/__Core/Memory/Types/RawPointer.h 18, 23 *)
  File "Caitlyn/__Core/Memory/Types/RawPointer.h" (Some "CAITLYN_CORE_MEMORY_TYPES_RAWPOINTER_H_") ["Caitlyn/__Base.h"] [];
  (* Caitlyn/__Core/Memory/Types/SharedPointer.h 18, 24 *)
  File "Caitlyn/__Core/Memory/Types/SharedPointer.h" (Some "CAITLYN_CORE_MEMORY_TYPES_SHAREDPOINTER_H") ["Caitlyn/__Base.h"] [];
  (* Caitlyn/__Core/Memory/Types/UniquePointer.h 18, 21 *)
  File "Caitlyn/__Core/Memory/Types/UniquePointer.h" (Some "CAITLYN_CORE_MEMORY_TYPES_UNIQUEPOINTER_H") ["Caitlyn/__Base.h"] [];
  (* Caitlyn/__Core/Memory/Types/WeakPointer.h 18, 21 *)
  File "Caitlyn/__Core/Memory/Types/WeakPointer.h" (Some "CAITLYN_CORE_MEMORY_TYPES_WEAKPOINTER_H") ["Caitlyn/__Core/Memory/Types/SharedPointer.h"] [];
  (* Caitlyn/__Core/Memory/Utility.h 18, 21 *)
  File "Caitlyn/__Core/Memory/Utility.h" (Some "CAITLYN_CORE_MEMORY_UTILITY_H_") ["Caitlyn/__Core/Memory/Utility/SizeCalculation.h"] [];
  (* Caitlyn/__Core/Memory/Utility/SizeCalculation.h 18, 21 *)
  File "Caitlyn/__Core/Memory/Utility/SizeCalculation.h" (Some "CAITLYN_CORE_MEMORY_UTILITY_SIZECALCULATION_H_") ["Caitlyn/__Core/Memory/Types/MemoryFormat.h"] [];
  (* Caitlyn/__Core/Numeric.h 18, 34-35 *)
  File "Caitlyn/__Core/Numeric.h" (Some "CAITLYN_CORE_NUMERIC_H_") ["Caitlyn/__Core/Numeric/Types.h"; "Caitlyn/__Core/Numeric/Utility.h"] [];
  (* Caitlyn/__Core/Numeric/Types.h 18, 21-22 *)
  File "Caitlyn/__Core/Numeric/Types.h" (Some "CAITLYN_CORE_NUMERIC_TYPES_H_") ["Caitlyn/__Core/Numeric/Types/Radix.h"; "Caitlyn/__Core/Numeric/Types/Sign.h"] [];
  (* Caitlyn/__Core/Numeric/Types/Radix.h 18, 21 *)
  File "Caitlyn/__Core/Numeric/Types/Radix.h" (Some "CAITLYN_CORE_NUMERIC_TYPES_RADIX_H_") ["Caitlyn/__Base.h"] [];
  (* Caitlyn/__Core/Numeric/Types/Sign.h 18, 21 *)
  File "Caitlyn/__Core/Numeric/Types/Sign.h" (Some "CAITLYN_CORE_NUMERIC_TYPES_SIGN_H_") ["Caitlyn/__Base.h"] [];
  (* Caitlyn/__Core/Numeric/Utility.h 18, 21 *)
  File "Caitlyn/__Core/Numeric/Utility.h" (Some "CAITLYN_CORE_NUMERIC_UTILITY_H_") ["Caitlyn/__Core/Numeric/Utility/Limits.h"] [];
  (* Caitlyn/__Core/Numeric/Utility/Limits.h 18, 24 *)
  File "Caitlyn/__Core/Numeric/Utility/Limits.h" (Some "CAITLYN_CORE_NUMERIC_UTILITY_LIMITS_H_") ["Caitlyn/__Base.h"] [];
  (* Caitlyn/__Core/String.h 18, 25-30 *)
  File "Caitlyn/__Core/String.h" (Some "CAITLYN_CORE_STRING_H_") ["Caitlyn/__Core/Char.h"; "Caitlyn/__Core/String/Algorithms.h"; "Caitlyn/__Core/String/StringBuilder.h"; "Caitlyn/__Core/String/Defs.h"; "Caitlyn/__Core/String/String.h"; "Caitlyn/__Core/String/Utility.h"] [];
  (* Caitlyn/__Core/String/Algorithms.h 18, 21 *)
  File "Caitlyn/__Core/String/Algorithms.h" (Some "CAITLYN_CORE_STRING_ALGORITHMS_H_") ["Caitlyn/__Core/String/Algorithms/Kmp.h"] [];
  (* Caitlyn/__Core/String/Algorithms/Kmp.h 18, 24 *)
  File "Caitlyn/__Core/String/Algorithms/Kmp.h" (Some "CAITLYN_CORE_STRING_ALGORITHMS_KMP_H_") ["Caitlyn/__Base.h"] [];
  (* Caitlyn/__Core/String/Defs.h 18, 21 *)
  File "Caitlyn/__Core/String/Defs.h" (Some "CAITLYN_CORE_STRING_DEFS_H_") ["Caitlyn/__Base.h"] [];
  (* Caitlyn/__Core/String/String.h 18, 30-35 *)
  File "Caitlyn/__Core/String/String.h" (Some "CAITLYN_CORE_STRING_TYPES_STRING_H_") ["Caitlyn/__Base.h"; "Caitlyn/__Core/Char.h"; "Caitlyn/__Core/Traits/Constraints/String.h"; "Caitlyn/__Core/Traits/Types/Base.h"; "Caitlyn/__Core/Traits/Types/Primary.h"; "Caitlyn/__Core/Traits/Constraints/Primary.h"] [];
  (* Caitlyn/__Core/String/StringBuilder.h 18, 21 *)
  File "Caitlyn/__Core/String/StringBuilder.h" (Some "CAITLYN_CORE_STRING_STRINGBUILDER_H_") ["Caitlyn/__Core/String/String.h"] [];
  (* Caitlyn/__Core/String/Utility.h 18, 24-26 *)
  File "Caitlyn/__Core/String/Utility.h" (Some "CAITLYN_CORE_STRING_UTILITY_H_") ["Caitlyn/__Core/String/String.h"; "Caitlyn/__Core/Traits/Types/Base.h"; "Caitlyn/__Core/Traits/Types/Primary.h"] [];
  (* Caitlyn/__Core/System.h 18, 21 *)
  File "Caitlyn/__Core/System.h" (Some "CAITLYN_CORE_SYSTEM_H_") ["Caitlyn/__Base.h"] [];
  (* Caitlyn/__Core/Threads.h 18, 26 *)
  File "Caitlyn/__Core/Threads.h" (Some "CAITLYN_CORE_THREADS_H_") ["Caitlyn/__Base.h"] [];
  (* Caitlyn/__Core/Time.h 18 *)
  File "Caitlyn/__Core/Time.h" (Some "CAITLYN_CORE_TIME_H_") [] [];
  (* Caitlyn/__Core/Traits.h 18, 21-22 *)
  File "Caitlyn/__Core/Traits.h" (Some "CAITLYN_CORE_TREITS_H_") ["Caitlyn/__Core/Traits/Constraints.h"; "Caitlyn/__Core/Traits/Types.h"] [];
  (* Caitlyn/__Core/Traits/Constraints.h 18, 21-27 *)
  File "Caitlyn/__Core/Traits/Constraints.h" (Some "CAITLYN_CORE_TRAITS_CONSTRAINTS_H_") ["Caitlyn/__Core/Traits/Constraints/Composite.h"; "Caitlyn/__Core/Traits/Constraints/Operations.h"; "Caitlyn/__Core/Traits/Constraints/Primary.h"; "Caitlyn/__Core/Traits/Constraints/Properties.h"; "Caitlyn/__Core/Traits/Constraints/PropertyQueries.h"; "Caitlyn/__Core/Traits/Constraints/Relationships.h"; "Caitlyn/__Core/Traits/Constraints/String.h"] [];
  (* Caitlyn/__Core/Traits/Constraints/Composite.h 18, 21 *)
  File "Caitlyn/__Core/Traits/Constraints/Composite.h" (Some "CAITLUN_CORE_TRAITS_CONSTRAINTS_COMPOSITE_H_") ["Caitlyn/__Core/Traits/Types/Base.h"] [];
  (* Caitlyn/__Core/Traits/Constraints/Operations.h 18, 21 *)
  File "Caitlyn/__Core/Traits/Constraints/Operations.h" (Some "CAITLUN_CORE_TRAITS_CONSTRAINTS_OPERATIONS_H_") ["Caitlyn/__Core/Traits/Types/Base.h"] [];
  (* Caitlyn/__Core/Traits/Constraints/Primary.h 18, 21 *)
  File "Caitlyn/__Core/Traits/Constraints/Primary.h" (Some "CAITLUN_CORE_TRAITS_CONSTRAINTS_PRIMARY_H_") ["Caitlyn/__Core/Traits/Types/Primary.h"] [];
  (* Caitlyn/__Core/Traits/Constraints/Properties.h 18, 21 *)
  File "Caitlyn/__Core/Traits/Constraints/Properties.h" (Some "CAITLUN_CORE_TRAITS_CONSTRAINTS_PROPERTIES_H_") ["Caitlyn/__Core/Traits/Types/Properties.h"] [];
  (* Caitlyn/__Core/Traits/Constraints/PropertyQueries.h 18, 23 *)
  File "Caitlyn/__Core/Traits/Constraints/PropertyQueries.h" (Some "CAITLUN_CORE_TRAITS_CONSTRAINTS_PROPERTYQUERIES_H_") ["Caitlyn/__Core/Traits/Types/Base.h"] [];
  (* Caitlyn/__Core/Traits/Constraints/Relationships.h 18, 21 *)
  File "Caitlyn/__Core/Traits/Constraints/Relationships.h" (Some "CAITLYN_CORE_TRAITS_CONSTRAINTS_RELATIONSHIPS_H_") ["Caitlyn/__Core/Traits/Types/Relationships.h"] [];
  (* Caitlyn/__Core/Traits/Constraints/String.h 18, 21 *)
  File "Caitlyn/__Core/Traits/Constraints/String.h" (Some "CAITLYN_CORE_TRAITS_CONSTRAINTS_STRING_H_") ["Caitlyn/__Core/Traits/Types/Base.h"] [];
  (* Caitlyn/__Core/Traits/Types.h 18, 21-30 *)
  File "Caitlyn/__Core/Traits/Types.h" (Some "CAITLIN_CORE_TRAITS_TYPES_H_") ["Caitlyn/__Core/Traits/Types/Base.h"; "Caitlyn/__Core/Traits/Types/Collections.h"; "Caitlyn/__Core/Traits/Types/Operators.h"; "Caitlyn/__Core/Traits/Types/Pointers.h"; "Caitlyn/__Core/Traits/Types/Primary.h"; "Caitlyn/__Core/Traits/Types/Properties.h"; "Caitlyn/__Core/Traits/Types/References.h"; "Caitlyn/__Core/Traits/Types/Relationships.h"; "Caitlyn/__Core/Traits/Types/SignModifiers.h"; "Caitlyn/__Core/Traits/Types/Specifiers.h"] [];
  (* Caitlyn/__Core/Traits/Types/Base.h 18, 23 *)
  File "Caitlyn/__Core/Traits/Types/Base.h" (Some "CAITLUN_CORE_TRAITS_TYPES_BASE_H_") ["Caitlyn/__Base.h"] [];
  (* Caitlyn/__Core/Traits/Types/Collections.h 18, 21 *)
  File "Caitlyn/__Core/Traits/Types/Collections.h" (Some "CAITLYN_CORE_TRAITS_TYPES_COLLECTIONS_H_") ["Caitlyn/__Core/Traits/Types/Base.h"] [];
  (* Caitlyn/__Core/Traits/Types/Operators.h 18, 23 *)
  File "Caitlyn/__Core/Traits/Types/Operators.h" (Some "CAITLYN_CORE_TRAITS_TYPES_OPERATORS_H_") ["Caitlyn/__Core/Traits/Types/Base.h"] [];
  (* Caitlyn/__Core/Traits/Types/Pointers.h 18, 21 *)
  File "Caitlyn/__Core/Traits/Types/Pointers.h" (Some "CAITLUN_CORE_TRAITS_TYPES_POINTERS_H_") ["Caitlyn/__Core/Traits/Types/References.h"] [];
  (* Caitlyn/__Core/Traits/Types/Primary.h 18, 21-22 *)
  File "Caitlyn/__Core/Traits/Types/Primary.h" (Some "CAITLUN_CORE_TRAITS_TYPES_PRIMARY_H_") ["Caitlyn/__Core/Traits/Types/Relationships.h"; "Caitlyn/__Core/Traits/Types/Specifiers.h"] [];
  (* Caitlyn/__Core/Traits/Types/Properties.h 18, 21 *)
  File "Caitlyn/__Core/Traits/Types/Properties.h" (Some "CAITLUN_CORE_TRAITS_TYPES_PROPERTIES_H_") ["Caitlyn/__Core/Traits/Types/Base.h"] [];
  (* Caitlyn/__Core/Traits/Types/References.h 18, 21 *)
  File "Caitlyn/__Core/Traits/Types/References.h" (Some "CAITLUN_CORE_TRAITS_TYPES_REFERENCES_H_") ["Caitlyn/__Core/Traits/Types/Base.h"] [];
  (* Caitlyn/__Core/Traits/Types/Relationships.h 18, 21 *)
  File "Caitlyn/__Core/Traits/Types/Relationships.h" (Some "CAITLUN_CORE_TRAITS_TYPES_RELATIONSHIPS_H_") ["Caitlyn/__Core/Traits/Types/Base.h"] [];
  (* Caitlyn/__Core/Traits/Types/SignModifiers.h 18, 21 *)
  File "Caitlyn/__Core/Traits/Types/SignModifiers.h" (Some "CAITLUN_CORE_TRAITS_TYPES_SIGN_MODIFIERS_H_") ["Caitlyn/__Core/Traits/Types/Base.h"] [];
  (* Caitlyn/__Core/Traits/Types/Specifiers.h 18, 21 *)
  File "Caitlyn/__Core/Traits/Types/Specifiers.h" (Some "CAITLUN_CORE_TRAITS_TYPES_SPECIFIERS_H_") ["Caitlyn/__Core/Traits/Types/Base.h"] [];
  (* Caitlyn/__Core/Utility.h 18, 36-37 *)
  File "Caitlyn/__Core/Utility.h" (Some "CAITLYN_CORE_UTILITY_H_") ["Caitlyn/__Core/Utility/Comparators.h"; "Caitlyn/__Core/Utility/Random.h"] [];
  (* Caitlyn/__Core/Utility/Comparators.h 18, 21 *)
  File "Caitlyn/__Core/Utility/Comparators.h" (Some "CAITLYN_CORE_UTILITY_COMPARATORS_H_") ["Caitlyn/__Base.h"] [];
  (* Caitlyn/__Core/Utility/Random.h 18, 26 *)
  File "Caitlyn/__Core/Utility/Random.h" (Some "CAITLYN_CORE_UTILITY_RANDOM_H_") ["Caitlyn/__Base.h"] [];
  (* Caitlyn/__Numeric/Types.h 18, 21-22 *)
  File "Caitlyn/__Numeric/Types.h" (Some "CAITLYN_NUMERIC_TYPES_H_") ["Caitlyn/__Numeric/Types/BigInteger.h"; "Caitlyn/__Numeric/Types/BigFloat.h"] [];
  (* Caitlyn/__Numeric/Types/BigFloat.h 18, 21 *)
  File "Caitlyn/__Numeric/Types/BigFloat.h" (Some "CAITLYN_NUMERIC_TYPES_BIGFLOAT_H_") ["Caitlyn/__Numeric/Types/BigInteger.h"] [];
  (* Caitlyn/__Numeric/Types/BigInteger.h 18, 26 *)
  File "Caitlyn/__Numeric/Types/BigInteger.h" (Some "CAITLYN_NUMERIC_TYPES_BIGINTEGER_H_") ["Caitlyn/__Core/String.h"] [];
  (* Caitlyn/__Serializing/Json.h 18, 21-22 *)
  File "Caitlyn/__Serializing/Json.h" (Some "CAITLYN_SERIALIZING_JSON_H_") ["Caitlyn/__Serializing/Json/Defs.h"; "Caitlyn/__Serializing/Json/Types.h"] [];
  (* Caitlyn/__Serializing/Json/Defs.h 18 *)
  File "Caitlyn/__Serializing/Json/Defs.h" (Some "CAITLYN_SERIALIZING_JSON_DEFS_H_") [] [];
  (* Caitlyn/__Serializing/Json/Types.h 18, 21 *)
  File "Caitlyn/__Serializing/Json/Types.h" (Some "CAITLYN_SERIALIZING_JSON_TYPES_H_") ["Caitlyn/__Serializing/Json/Types/Json.h"] [];
  (* Caitlyn/__Serializing/Json/Types/Json.h 18, 23-24 *)
  File "Caitlyn/__Serializing/Json/Types/Json.h" (Some "CAITLYN_SERIALIZING_JSON_TYPES_DOCUMENT_H_") ["Caitlyn/__Serializing/Json/Types/JsonParser.h"; "Caitlyn/__Serializing/Json/Utility.h"] [];
  (* Caitlyn/__Serializing/Json/Types/JsonClass.h 18, 21 *)
  File "Caitlyn/__Serializing/Json/Types/JsonClass.h" (Some "CAITLYN_SERIALIZING_JSON_TYPES_CLASS_H_") ["Caitlyn/__Base.h"] [];
  (* Caitlyn/__Serializing/Json/Types/JsonData.h 18, 30-31 *)
  File "Caitlyn/__Serializing/Json/Types/JsonData.h" (Some "CAITLYN_SERIALIZING_JSON_TYPES_DATA_H_") ["Caitlyn/__Core/String.h"; "Caitlyn/__Serializing/Json/Types/JsonClass.h"] [];
  (* Caitlyn/__Serializing/Json/Types/JsonError.h 18, 21 *)
  File "Caitlyn/__Serializing/Json/Types/JsonError.h" (Some "CAITLYN_SERIALIZING_JSON_TYPES_ERROR_H_") ["Caitlyn/__Base.h"] [];
  (* Caitlyn/__Serializing/Json/Types/JsonParser.h 18, 21-23 *)
  File "Caitlyn/__Serializing/Json/Types/JsonParser.h" (Some "CAITLYN_SERIALIZING_JSON_TYPES_PARSER_H_") ["Caitlyn/__Core/String.h"; "Caitlyn/__Serializing/Json/Types/JsonData.h"; "Caitlyn/__Serializing/Json/Types/JsonError.h"] [];
  (* Caitlyn/__Serializing/Json/Utility.h 18, 23 *)
  File "Caitlyn/__Serializing/Json/Utility.h" (Some "CAITLYN_SERIALIZING_JSON_UTILITY_H_") ["Caitlyn/__Serializing/Json/Types/JsonError.h"] [];
  (* Caitlyn/__Testing/Macro.h 18, 21-23 *)
  File "Caitlyn/__Testing/Macro.h" (Some "CAITLYN_TEST_MACRO_H_") ["Caitlyn/__Testing/Macro/Assert.h"; "Caitlyn/__Testing/Macro/TestFixture.h"; "Caitlyn/__Testing/Macro/Test.h"] [];
  (* Caitlyn/__Testing/Macro/Assert.h 18, 21-22 *)
  File "Caitlyn/__Testing/Macro/Assert.h" (Some "CAITLYN_TEST_MACRO_ASSERT_H_") ["Caitlyn/__Core/Traits.h"; "Caitlyn/__Testing/Types.h"] [];
  (* Caitlyn/__Testing/Macro/Test.h 18, 21 *)
  File "Caitlyn/__Testing/Macro/Test.h" (Some "CAITLYN_TEST_MACRO_TEST_H_") ["Caitlyn/__Testing/Types.h"] [];
  (* Caitlyn/__Testing/Macro/TestFixture.h 18, 21 *)
  File "Caitlyn/__Testing/Macro/TestFixture.h" (Some "CAITLYN_TEST_MACRO_TESTFIXTURE_H_") ["Caitlyn/__Testing/Types.h"] [];
  (* Caitlyn/__Testing/Types.h 18, 21-24 *)
  File "Caitlyn/__Testing/Types.h" (Some "CAITLYN_TEST_TYPES_H_") ["Caitlyn/__Testing/Types/TestCase.h"; "Caitlyn/__Testing/Types/TestFailMessage.h"; "Caitlyn/__Testing/Types/TestFunction.h"; "Caitlyn/__Testing/Types/TestRegistry.h"] [];
  (* Caitlyn/__Testing/Types/TestCase.h 18, 24-25 *)
  File "Caitlyn/__Testing/Types/TestCase.h" (Some "CAITLYN_TEST_TYPES_TESTCASE_H_") ["Caitlyn/__Core/String.h"; "Caitlyn/__Testing/Types/TestFunction.h"] [];
  (* Caitlyn/__Testing/Types/TestFailMessage.h 18, 23 *)
  File "Caitlyn/__Testing/Types/TestFailMessage.h" (Some "CAITLYN_TEST_TYPES_TESTFAILMESSAGE_H_") ["Caitlyn/__Base.h"] [];
  (* Caitlyn/__Testing/Types/TestFunction.h 18, 21 *)
  File "Caitlyn/__Testing/Types/TestFunction.h" (Some "CAITLYN_TEST_TYPES_TESTFUNCTION_H_") ["Caitlyn/__Base.h"] [];
  (* Caitlyn/__Testing/Types/TestRegistry.h 18, 26-27 *)
  File "Caitlyn/__Testing/Types/TestRegistry.h" (Some "CAITLYN_TEST_TYPES_TESTREGISTRY_H_") ["Caitlyn/__Base.h"; "Caitlyn/__Testing/Types/TestCase.h"] []
].
(** The headers for users: those without .h in their name; they have no include guard. *)
Definition public : list string := ["Caitlyn/Algorithms"; "Caitlyn/Caitlyn"; "Caitlyn/Char"; "Caitlyn/Collections"; "Caitlyn/DateTime"; "Caitlyn/Error"; "Caitlyn/File"; "Caitlyn/IO"; "Caitlyn/Memory"; "Caitlyn/Numeric"; "Caitlyn/Serializing"; "Caitlyn/String"; "Caitlyn/System"; "Caitlyn/Testing"; "Caitlyn/Threading"; "Caitlyn/Traits"; "Caitlyn/Utility"].
