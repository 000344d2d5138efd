(** The assertions of the project's own unit tests
    (/repo/test/smtpclient_unittest), run against the model.

    These are tests of the model, not proofs about it: each [Example] computes
    one literal case.  They are evidence that the definitions the theorems
    speak of give the answers the project's authors expect of the code.  Each
    is named after the test it transcribes and cites its line.  A typed test
    is transcribed for both interfaces (character pointers and [std::string]).
    The tests of the ErrorResolver class's copy and move operations, whose
    object is a number and a message, are not transcribed. *)

From Coq Require Import Ascii String List NArith ZArith Bool.
From Verif Require Import Base ModelUtil ModelBase64 ModelAddress ModelAttachment
  ModelErrors ModelReply ModelMessage ModelState ModelClient ModelWorld ModelCpp ModelHeap.
Import ListNotations.
Open Scope Z_scope.

(** A C string argument. *)
Definition arg (s : string) : option str := Some (B s).
Definition lit (s : string) : cptr := CCaller (B s).

(** What an expression of the ownership model returns, started on an empty
    heap. *)
Definition on_heap {A} (m : H A) : outcome A := fst (m empty_heap).

(** ** stringutils_unittest.cpp *)

(** Line 6. *)
Example test_TrimLeft_TrimOneSpace :
  trimLeft (B " ") = Done (B "").
Proof. vm_compute. reflexivity. Qed.

(** Line 11. *)
Example test_TrimLeft_TrimTwoSpaces :
  trimLeft (B "  ") = Done (B "").
Proof. vm_compute. reflexivity. Qed.

(** Line 16. *)
Example test_TrimLeft_TrimWordOneSpaceLeft :
  trimLeft (B " Test  ") = Done (B "Test  ").
Proof. vm_compute. reflexivity. Qed.

(** Line 21. *)
Example test_TrimLeft_TrimWordTwoSpacesLeft :
  trimLeft (B "  Test  ") = Done (B "Test  ").
Proof. vm_compute. reflexivity. Qed.

(** Line 26. *)
Example test_TrimLeft_TrimTwoWordsTwoSpacesLeft :
  trimLeft (B "  Test 123 ") = Done (B "Test 123 ").
Proof. vm_compute. reflexivity. Qed.

(** Line 31. *)
Example test_TrimRight_TrimOneSpace :
  trimRight (B " ") = Done (B "").
Proof. vm_compute. reflexivity. Qed.

(** Line 36. *)
Example test_TrimRight_TrimTwoSpaces :
  trimRight (B "  ") = Done (B "").
Proof. vm_compute. reflexivity. Qed.

(** Line 41. *)
Example test_TrimRight_TrimWordOneSpaceRight :
  trimRight (B " Test ") = Done (B " Test").
Proof. vm_compute. reflexivity. Qed.

(** Line 46. *)
Example test_TrimRight_TrimWordTwoSpacesRight :
  trimRight (B "  Test  ") = Done (B "  Test").
Proof. vm_compute. reflexivity. Qed.

(** Line 51. *)
Example test_TrimRight_TrimTwoWordsTwoSpacesRight :
  trimRight (B "  Test 123  ") = Done (B "  Test 123").
Proof. vm_compute. reflexivity. Qed.

(** Line 56. *)
Example test_TrimBoth_TrimOneSpace :
  trim (B " ") = Done (B "").
Proof. vm_compute. reflexivity. Qed.

(** Line 61. *)
Example test_TrimBoth_TrimTwoSpaces :
  trim (B "  ") = Done (B "").
Proof. vm_compute. reflexivity. Qed.

(** Line 66. *)
Example test_TrimBoth_TrimOneWordTwoSpacesLeftAndRight :
  trim (B "  Test  ") = Done (B "Test").
Proof. vm_compute. reflexivity. Qed.

(** Line 71. *)
Example test_TrimBoth_TrimTwoWordsOneSpaceLeftAndRight :
  trim (B " Test 123 ") = Done (B "Test 123").
Proof. vm_compute. reflexivity. Qed.

(** Line 76. *)
Example test_TrimBoth_TrimTwoWordsTwoSpacesLeftAndRight :
  trim (B "  Test 123  ") = Done (B "Test 123").
Proof. vm_compute. reflexivity. Qed.

(** Line 81. *)
Example test_ToLower_EmptyString :
  toLower (B "") = B "".
Proof. vm_compute. reflexivity. Qed.

(** Line 85. *)
Example test_ToLower_OnlySpaces :
  toLower (B "  ") = B "  ".
Proof. vm_compute. reflexivity. Qed.

(** Line 89. *)
Example test_ToLower_AllCaps :
  toLower (B "TEST") = B "test".
Proof. vm_compute. reflexivity. Qed.

(** Line 93. *)
Example test_ToLower_AllLowerCase :
  toLower (B "test") = B "test".
Proof. vm_compute. reflexivity. Qed.

(** Line 97. *)
Example test_ToUpper_EmptyString :
  toUpper (B "") = B "".
Proof. vm_compute. reflexivity. Qed.

(** Line 101. *)
Example test_ToUpper_OnlySpaces :
  toUpper (B "  ") = B "  ".
Proof. vm_compute. reflexivity. Qed.

(** Line 105. *)
Example test_ToUpper_AllCaps :
  toUpper (B "TEST") = B "TEST".
Proof. vm_compute. reflexivity. Qed.

(** Line 109. *)
Example test_ToUpper_AllLowerCase :
  toUpper (B "test") = B "TEST".
Proof. vm_compute. reflexivity. Qed.

(** ** serveroptionsanalyzer_unittest.cpp *)

(** Line 6. *)
Example test_WithEmpty_ReturnFalse :
  containsAllOptions (B "") = false.
Proof. vm_compute. reflexivity. Qed.

(** Line 10. *)
Example test_With250HypenSTARTTLS_ReturnFALSE :
  containsAllOptions (B "250-STARTTLS") = false.
Proof. vm_compute. reflexivity. Qed.

(** Line 14. *)
Example test_With250SpaceSTARTTLS_ReturnTrue :
  containsAllOptions (B "250 STARTTLS") = true.
Proof. vm_compute. reflexivity. Qed.

(** Line 18. *)
Example test_With250HypenSTARTTLSrn250SpaceSize_ReturnTrue :
  containsAllOptions (B "250-STARTTLS" ++ CRLF ++ B "250 SIZE 53477376") = true.
Proof. vm_compute. reflexivity. Qed.

(** Line 22. *)
Example test_With250HypenSTARTTLSrn250HypenSize_ReturnFalse :
  containsAllOptions (B "250-STARTTLS" ++ CRLF ++ B "250-SIZE 53477376") = false.
Proof. vm_compute. reflexivity. Qed.

(** Line 26. *)
Example test_With250HypenSTARTTLSrn250HypenSizern_ReturnTrue :
  containsAllOptions (B "250-STARTTLS" ++ CRLF ++ B "250 SIZE 53477376" ++ CRLF) = true.
Proof. vm_compute. reflexivity. Qed.

(** ** messageaddress_unittest.cpp *)

(** Line 20. *)
Example test_address_constructor_EmptyEmailAddrInvalidArgument :
  (address_new (arg "") (arg ""), cpp_address_new (B "") (B ""))
  = (Throw, Throw).
Proof. vm_compute. reflexivity. Qed.

(** Line 30. *)
Example test_address_constructor_EmptyEmailAddressValidDNThrowInvalidArgument :
  (address_new (arg "") (arg "Test Address"), cpp_address_new (B "") (B "Test Address"))
  = (Throw, Throw).
Proof. vm_compute. reflexivity. Qed.

(** Line 39. *)
Example test_address_constructor_WhiteSpacesEmailAddrInvalidArgument :
  (address_new (arg " ") (arg ""), cpp_address_new (B " ") (B ""))
  = (Throw, Throw).
Proof. vm_compute. reflexivity. Qed.

(** Line 49. *)
Example test_address_constructor_OnlyPrefixEmailAddrInvalidArgument :
  (address_new (arg "test") (arg ""), cpp_address_new (B "test") (B ""))
  = (Throw, Throw).
Proof. vm_compute. reflexivity. Qed.

(** Line 59. *)
Example test_address_constructor_OnlyAtSignEmailAddrInvalidArgument :
  (address_new (arg "@") (arg ""), cpp_address_new (B "@") (B ""))
  = (Throw, Throw).
Proof. vm_compute. reflexivity. Qed.

(** Line 69. *)
Example test_address_constructor_NoSuffixEmailAddrInvalidArgument :
  (address_new (arg "test@") (arg ""), cpp_address_new (B "test@") (B ""))
  = (Throw, Throw).
Proof. vm_compute. reflexivity. Qed.

(** Line 79. *)
Example test_address_constructor_NoExtensionEmailAddrValidParam :
  (address_new (arg "test@domain") (arg "Test Address"), cpp_address_new (B "test@domain") (B "Test Address"))
  = (Done (mkAddr (B "test@domain") (B "Test Address")), Done (mkAddr (B "test@domain") (B "Test Address"))).
Proof. vm_compute. reflexivity. Qed.

(** Line 85. *)
Example test_address_constructor_ValidParam :
  (address_new (arg "test@domain.com") (arg "Test Address"), cpp_address_new (B "test@domain.com") (B "Test Address"))
  = (Done (mkAddr (B "test@domain.com") (B "Test Address")), Done (mkAddr (B "test@domain.com") (B "Test Address"))).
Proof. vm_compute. reflexivity. Qed.

(** Line 91. *)
Example test_address_constructor_ValidParamWithUpperCaseCharEmailAddress :
  (address_new (arg "myaddress@gmail.com") (arg "Test Address"), cpp_address_new (B "myaddress@gmail.com") (B "Test Address"))
  = (Done (mkAddr (B "myaddress@gmail.com") (B "Test Address")), Done (mkAddr (B "myaddress@gmail.com") (B "Test Address"))).
Proof. vm_compute. reflexivity. Qed.

(** Line 97. *)
Example test_address_CopyConstructor :
  on_heap (a <~ addr_new (lit "myaddress@gmail.com") (lit "Test Address") ;;
    b <~ addr_copy a ;; x <~ read_addr a ;; y <~ read_addr b ;; hret (x, y))
  = Done ((Some (B "myaddress@gmail.com"), Some (B "Test Address")),
          (Some (B "myaddress@gmail.com"), Some (B "Test Address"))).
Proof. vm_compute. reflexivity. Qed.

(** Line 106. *)
Example test_address_CopyAssignment :
  on_heap (a <~ addr_new (lit "test@ccc.com") (lit "123") ;;
    b <~ addr_new (lit "aaa@test.com") (lit "bbb") ;;
    b <~ addr_assign b a ;; x <~ read_addr a ;; y <~ read_addr b ;; hret (x, y))
  = Done ((Some (B "test@ccc.com"), Some (B "123")), (Some (B "test@ccc.com"), Some (B "123"))).
Proof. vm_compute. reflexivity. Qed.

(** Line 116. *)
Example test_address_MoveConstructor :
  on_heap (a <~ addr_new (lit "test@aaa.com") (lit "123") ;;
    r <~ addr_move a ;; read_addr (fst r))
  = Done (Some (B "test@aaa.com"), Some (B "123")).
Proof. vm_compute. reflexivity. Qed.

(** Line 123. *)
Example test_address_MoveAssignment :
  on_heap (a <~ addr_new (lit "test@aaa.com") (lit "123") ;;
    b <~ addr_new (lit "aaa@bbb.com") (lit "bbb") ;;
    r <~ addr_move_assign b a ;; read_addr (fst r))
  = Done (Some (B "test@aaa.com"), Some (B "123")).
Proof. vm_compute. reflexivity. Qed.

(** ** credential_unittest.cpp *)

(** Line 21. *)
Example test_credential_Constructor_NullUsername :
  credential_new None (arg "123") = Throw.
Proof. vm_compute. reflexivity. Qed.

(** Line 31. *)
Example test_credential_Constructor_EmptyUsername :
  credential_new (arg "") (arg "123") = Throw.
Proof. vm_compute. reflexivity. Qed.

Example test_cpp_credential_Constructor_EmptyUsername :
  cpp_credential_new (B "") (B "123") = Throw.
Proof. vm_compute. reflexivity. Qed.

(** Line 41. *)
Example test_credential_Constructor_OnlySpacesUsername :
  credential_new (arg "    ") (arg "123") = Throw.
Proof. vm_compute. reflexivity. Qed.

Example test_cpp_credential_Constructor_OnlySpacesUsername :
  cpp_credential_new (B "    ") (B "123") = Throw.
Proof. vm_compute. reflexivity. Qed.

(** Line 51. *)
Example test_credential_Constructor_NullPassword :
  credential_new (arg "test") None = Throw.
Proof. vm_compute. reflexivity. Qed.

(** Line 61. *)
Example test_credential_Constructor_EmptyPassword :
  credential_new (arg "test") (arg "") = Throw.
Proof. vm_compute. reflexivity. Qed.

Example test_cpp_credential_Constructor_EmptyPassword :
  cpp_credential_new (B "test") (B "") = Throw.
Proof. vm_compute. reflexivity. Qed.

(** Line 71. *)
Example test_credential_Constructor_ValidOnlySpacesPassword :
  (credential_new (arg "Test3") (arg "   "), cpp_credential_new (B "Test3") (B "   "))
  = (Done (mkCred (B "Test3") (B "   ") kImplicit), Done (mkCred (B "Test3") (B "   ") kImplicit)).
Proof. vm_compute. reflexivity. Qed.

(** Lines 77 and 85. *)
Example test_credential_CopyConstructor :
  on_heap (c <~ cred_new (lit "test") (lit "123") ;; d <~ cred_copy c ;;
    cred_destroy c ;;~ read_cred d) = Done (Some (B "test"), Some (B "123"), kImplicit).
Proof. vm_compute. reflexivity. Qed.

Example test_credential_CopyAssignment :
  on_heap (c <~ cred_new (lit "test") (lit "123") ;; d <~ cred_new (lit "aaa") (lit "bbb") ;;
    d <~ cred_assign d c ;; cred_destroy c ;;~ read_cred d) = Done (Some (B "test"), Some (B "123"), kImplicit).
Proof. vm_compute. reflexivity. Qed.

(** Lines 94 and 101. *)
Example test_credential_MoveConstructor :
  on_heap (c <~ cred_new (lit "test") (lit "123") ;; r <~ cred_move c ;;
    read_cred (fst r)) = Done (Some (B "test"), Some (B "123"), kImplicit).
Proof. vm_compute. reflexivity. Qed.

Example test_credential_MoveAssignment :
  on_heap (c <~ cred_new (lit "test") (lit "123") ;; d <~ cred_new (lit "aaa") (lit "bbb") ;;
    r <~ cred_move_assign d c ;; read_cred (fst r)) = Done (Some (B "test"), Some (B "123"), kImplicit).
Proof. vm_compute. reflexivity. Qed.

(** Lines 119 to 186. *)
Definition test3 : credential := mkCred (B "Test3") (B "123") kImplicit.

Example test_credential_test3 :
  (credential_new (arg "Test3") (arg "123"), cpp_credential_new (B "Test3") (B "123")) = (Done test3, Done test3).
Proof. vm_compute. reflexivity. Qed.

Example test_credential_setUsername_ValidUsername :
  setUsername test3 (arg "Test4") = (Done tt, mkCred (B "Test4") (B "123") kImplicit).
Proof. vm_compute. reflexivity. Qed.

Example test_cpp_credential_setUsername_ValidUsername :
  cpp_setUsername test3 (B "Test4") = (Done tt, mkCred (B "Test4") (B "123") kImplicit).
Proof. vm_compute. reflexivity. Qed.

Example test_credential_setUsername_NullUsername :
  setUsername test3 None = (Throw, test3).
Proof. vm_compute. reflexivity. Qed.

Example test_credential_setUsername_EmptyUsername :
  setUsername test3 (arg "") = (Throw, test3).
Proof. vm_compute. reflexivity. Qed.

Example test_cpp_credential_setUsername_EmptyUsername :
  cpp_setUsername test3 (B "") = (Throw, test3).
Proof. vm_compute. reflexivity. Qed.

Example test_credential_setUsername_OnlySpacesUsername :
  setUsername test3 (arg "    ") = (Throw, test3).
Proof. vm_compute. reflexivity. Qed.

Example test_cpp_credential_setUsername_OnlySpacesUsername :
  cpp_setUsername test3 (B "    ") = (Throw, test3).
Proof. vm_compute. reflexivity. Qed.

Example test_credential_setPassword_ValidPassword :
  setPassword test3 (arg "432") = (Done tt, mkCred (B "Test3") (B "432") kImplicit).
Proof. vm_compute. reflexivity. Qed.

Example test_cpp_credential_setPassword_ValidPassword :
  cpp_setPassword test3 (B "432") = (Done tt, mkCred (B "Test3") (B "432") kImplicit).
Proof. vm_compute. reflexivity. Qed.

Example test_credential_setPassword_NullPassword :
  setPassword test3 None = (Throw, test3).
Proof. vm_compute. reflexivity. Qed.

Example test_credential_setPassword_EmptyPassword :
  setPassword test3 (arg "") = (Throw, test3).
Proof. vm_compute. reflexivity. Qed.

Example test_cpp_credential_setPassword_EmptyPassword :
  cpp_setPassword test3 (B "") = (Throw, test3).
Proof. vm_compute. reflexivity. Qed.

Example test_credential_setPassword_ValidOnlySpacesPassword :
  setPassword test3 (arg "   ") = (Done tt, mkCred (B "Test3") (B "   ") kImplicit).
Proof. vm_compute. reflexivity. Qed.

Example test_cpp_credential_setPassword_ValidOnlySpacesPassword :
  cpp_setPassword test3 (B "   ") = (Done tt, mkCred (B "Test3") (B "   ") kImplicit).
Proof. vm_compute. reflexivity. Qed.

(** Lines 192 and 227: every method but the implicit one, set, copied, moved
    (the last assertion reads the object moved from, which keeps it), and
    given to the constructor. *)
Definition methods : list authmethod := [kPlain; kLogin; kXOauth2; kPlainClientToken; kOAuthBearer; kXOAuth].

Definition method_test (m : authmethod) : outcome (list authmethod) :=
  on_heap (c <~ cred_new (lit "Test") (lit "123") ;;
    c <~ cred_setMethod c m ;;
    c1 <~ cred_copy c ;; c2 <~ cred_copy c ;;
    r1 <~ cred_move c1 ;; r2 <~ cred_move (fst r1) ;;
    d <~ cred_new3 (lit "Test") (lit "123") m ;;
    hret [co_method c; co_method c1; co_method c2; co_method (fst r1);
          co_method (snd r2); co_method d]).

Example test_credential_RecommendedAuthenticationMode :
  map method_test methods = map (fun m => Done (repeat m 6)) methods.
Proof. vm_compute. reflexivity. Qed.

Example test_credential_RecommendedAuthenticationModeSpecified :
  map (fun m => (credential_new3 (arg "Test") (arg "123") m, cpp_credential_new3 (B "Test") (B "123") m)) methods
  = map (fun m => (Done (mkCred (B "Test") (B "123") m), Done (mkCred (B "Test") (B "123") m))) methods.
Proof. vm_compute. reflexivity. Qed.

(** ** attachment_unittest.cpp *)

(** Lines 20 and 30. *)
Example test_attachment_Constructor_Fail :
  (attachment_new (arg "") (arg "") (arg ""), attachment_new (arg "   ") (arg "") (arg ""),
   cpp_attachment_new (B "") (B "") (B ""), cpp_attachment_new (B "   ") (B "") (B ""))
  = (Throw, Throw, Throw, Throw).
Proof. vm_compute. reflexivity. Qed.

(** Lines 40 and 44. *)
Example test_attachment_Constructor_Valid :
  (attachment_new (arg "test.png") (arg "") (arg ""), attachment_new (arg "test.png") (arg "") (arg "CID1@localhost"),
   cpp_attachment_new (B "test.png") (B "") (B ""), cpp_attachment_new (B "test.png") (B "") (B "CID1@localhost"))
  = (Done (mkAtt (B "") (B "test.png") (B "")), Done (mkAtt (B "") (B "test.png") (B "CID1@localhost")),
     Done (mkAtt (B "") (B "test.png") (B "")), Done (mkAtt (B "") (B "test.png") (B "CID1@localhost"))).
Proof. vm_compute. reflexivity. Qed.

(** Lines 48 to 79: copy and move; the results are name, file name and content
    id. *)
Example test_attachment_CopyConstructor :
  on_heap (a <~ att_new (lit "test.png") (lit "Test") (lit "CID1@localhost") ;;
    b <~ att_copy a ;; x <~ read_att a ;; y <~ read_att b ;; hret (x, y))
  = Done ((Some (B "Test"), Some (B "test.png"), Some (B "CID1@localhost")),
          (Some (B "Test"), Some (B "test.png"), Some (B "CID1@localhost"))).
Proof. vm_compute. reflexivity. Qed.

Example test_attachment_CopyAssignment :
  on_heap (a <~ att_new (lit "test.png") (lit "123") (lit "CID1@localhost") ;;
    b <~ att_new (lit "aaa.png") (lit "bbb") (lit "CID2@localhost") ;;
    b <~ att_assign b a ;; x <~ read_att a ;; y <~ read_att b ;; hret (x, y))
  = Done ((Some (B "123"), Some (B "test.png"), Some (B "CID1@localhost")),
          (Some (B "123"), Some (B "test.png"), Some (B "CID1@localhost"))).
Proof. vm_compute. reflexivity. Qed.

Example test_attachment_MoveConstructor :
  on_heap (a <~ att_new (lit "test.png") (lit "123") (lit "CID1@localhost") ;;
    r <~ att_move a ;; read_att (fst r))
  = Done (Some (B "123"), Some (B "test.png"), Some (B "CID1@localhost")).
Proof. vm_compute. reflexivity. Qed.

Example test_attachment_MoveAssignment :
  on_heap (a <~ att_new (lit "test.png") (lit "123") (lit "CID1@localhost") ;;
    b <~ att_new (lit "aaa.png") (lit "bbb") (lit "") ;;
    r <~ att_move_assign b a ;; read_att (fst r))
  = Done (Some (B "123"), Some (B "test.png"), Some (B "CID1@localhost")).
Proof. vm_compute. reflexivity. Qed.

(** Lines 88 to 100. *)
Definition test_localhost : attachment := mkAtt (B "test") (B "test.png") (B "test@localhost").

Example test_attachment_getContentId :
  (attachment_new (arg "test.png") (arg "test") (arg "test@localhost"),
   cpp_attachment_new (B "test.png") (B "test") (B "test@localhost"))
  = (Done test_localhost, Done test_localhost).
Proof. vm_compute. reflexivity. Qed.

Example test_attachment_setContentId :
  map (fun s => (setContentId test_localhost (Some s), cpp_setContentId test_localhost s))
      [B "test2@localhost"; B ""]
  = map (fun s => (Done (mkAtt (B "test") (B "test.png") s), Done (mkAtt (B "test") (B "test.png") s)))
      [B "test2@localhost"; B ""].
Proof. vm_compute. reflexivity. Qed.

(** Lines 107 to 498: the MIME type of each file name, through the constructor
    and the getter of both interfaces. *)
Definition mime_tests : list (string * string) :=
  [("test.png", "image/png");
   ("test.jpg", "image/jpeg");
   ("test.jpeg", "image/jpeg");
   ("test.jpe", "image/jpeg");
   ("test.gif", "image/gif");
   ("test.tif", "image/tiff");
   ("test.tiff", "image/tiff");
   ("test.ico", "image/x-icon");
   ("test.xml", "application/xml");
   ("test.xsl", "application/xml");
   ("test.xhtml", "application/xhtml+xml");
   ("test.xht", "application/xhtml+xml");
   ("test.pdf", "application/pdf");
   ("test.js", "application/javascript");
   ("test.css", "text/css");
   ("test.csv", "text/csv");
   ("test.html", "text/html");
   ("test.htm", "text/html");
   ("test.txt", "text/plain");
   ("test.text", "text/plain");
   ("test.conf", "text/plain");
   ("test.def", "text/plain");
   ("test.list", "text/plain");
   ("test.log", "text/plain");
   ("test.in", "text/plain");
   ("test.mpeg", "video/mpeg");
   ("test.mpg", "video/mpeg");
   ("test.mpe", "video/mpeg");
   ("test.m1v", "video/mpeg");
   ("test.m2v", "video/mpeg");
   ("test.mp4", "video/mp4");
   ("test.mp4v", "video/mp4");
   ("test.mpg4", "video/mp4");
   ("test.qt", "video/quicktime");
   ("test.mov", "video/quicktime");
   ("test.wmv", "video/x-ms-wmv");
   ("test.avi", "video/x-msvideo");
   ("test.flv", "video/x-flv");
   ("test.webm", "video/webm");
   ("test.wav", "audio/wav");
   ("test.mp3", "audio/mpeg");
   ("test.oga", "audio/ogg");
   ("test.opus", "audio/opus");
   ("test.aac", "audio/aac");
   ("test.zip", "application/zip");
   ("test.rar", "application/x-rar-compressed");
   ("test.odt", "application/vnd.oasis.opendocument.text");
   ("test.ods", "application/vnd.oasis.opendocument.spreadsheet");
   ("test.odp", "application/vnd.oasis.opendocument.presentation");
   ("test.odg", "application/vnd.oasis.opendocument.graphics");
   ("test.xls", "application/vnd.ms-excel");
   ("test.xlm", "application/vnd.ms-excel");
   ("test.xla", "application/vnd.ms-excel");
   ("test.xlc", "application/vnd.ms-excel");
   ("test.xlt", "application/vnd.ms-excel");
   ("test.xlw", "application/vnd.ms-excel");
   ("test.xlam", "application/vnd.ms-excel.addin.macroenabled.12");
   ("test.xlsb", "application/vnd.ms-excel.sheet.binary.macroenabled.12");
   ("test.xlsm", "application/vnd.ms-excel.sheet.macroenabled.12");
   ("test.xltm", "application/vnd.ms-excel.template.macroenabled.12");
   ("test.xlsx", "application/vnd.openxmlformats-officedocument.spreadsheetml.sheet");
   ("test.xltx", "application/vnd.openxmlformats-officedocument.spreadsheetml.template");
   ("test.ppt", "application/vnd.ms-powerpoint");
   ("test.pps", "application/vnd.ms-powerpoint");
   ("test.pot", "application/vnd.ms-powerpoint");
   ("test.ppam", "application/vnd.ms-powerpoint.addin.macroenabled.12");
   ("test.pptm", "application/vnd.ms-powerpoint.presentation.macroenabled.12");
   ("test.sldm", "application/vnd.ms-powerpoint.slide.macroenabled.12");
   ("test.ppsm", "application/vnd.ms-powerpoint.slideshow.macroenabled.12");
   ("test.potm", "application/vnd.ms-powerpoint.template.macroenabled.12");
   ("test.pptx", "application/vnd.openxmlformats-officedocument.presentationml.presentation");
   ("test.sldx", "application/vnd.openxmlformats-officedocument.presentationml.slide");
   ("test.ppsx", "application/vnd.openxmlformats-officedocument.presentationml.slideshow");
   ("test.potx", "application/vnd.openxmlformats-officedocument.presentationml.template");
   ("test.doc", "application/msword");
   ("test.dot", "application/msword");
   ("test.docx", "application/vnd.openxmlformats-officedocument.wordprocessingml.document");
   ("test.dotx", "application/vnd.openxmlformats-officedocument.wordprocessingml.template");
   ("test.xul", "application/vnd.mozilla.xul+xml")]%string.

Example test_attachment_getmimetype :
  map (fun p => obind (attachment_new (arg (fst p)) (arg "") (arg "")) (fun a => Done (getMimeType a))) mime_tests
  = map (fun p => Done (B (snd p))) mime_tests.
Proof. vm_compute. reflexivity. Qed.

Example test_cpp_attachment_getmimetype :
  map (fun p => obind (cpp_attachment_new (B (fst p)) (B "") (B "")) (fun a => Done (cpp_getMimeType a))) mime_tests
  = map (fun p => Done (B (snd p))) mime_tests.
Proof. vm_compute. reflexivity. Qed.

(** ** errorresolver_unittest.cpp *)

(** Lines 55 to the end, and the message of lines 18 to 47. *)
Definition message_tests : list (Z * string) :=
  [(0, "No message correspond to this error code"%string);
   (SOCKET_INIT_SESSION_CREATION_ERROR, "Unable to create the socket"%string);
   (SOCKET_INIT_SESSION_CONNECT_ERROR, "Unable to connect to the socket"%string);
   (SOCKET_INIT_SESSION_CONNECT_TIMEOUT, "The connection attempt has timed out"%string);
   (SOCKET_INIT_SESSION_WINSOCKET_STARTUP_ERROR, "Unable to start WSA (Winsock)"%string);
   (SOCKET_INIT_SESSION_WINSOCKET_GETADDRINFO_ERROR, "Unable to get address info (Winsock)"%string);
   (SOCKET_INIT_SESSION_GETHOSTBYNAME_ERROR, "Unable to get host by name"%string);
   (SOCKET_INIT_SESSION_FCNTL_GET_ERROR, "Unable to get socket file descriptor status flags"%string);
   (SOCKET_INIT_SESSION_FCNTL_SET_ERROR, "Unable to set socket file descriptor status flags"%string);
   (SOCKET_INIT_SESSION_GET_SOCKET_OPTIONS_ERROR, "Unable to get socket options"%string);
   (SOCKET_INIT_SESSION_DELAYED_CONNECTION_ERROR, "Error in delayed connection"%string);
   (SOCKET_INIT_CLIENT_SEND_EHLO_ERROR, "Unable to send the EHLO command"%string);
   (SOCKET_INIT_CLIENT_SEND_EHLO_TIMEOUT, "The EHLO command has timed out"%string);
   (SOCKET_INIT_CLIENT_SEND_STARTTLS_ERROR, "Unable to send the STARTTLS command"%string);
   (SOCKET_INIT_CLIENT_SEND_STARTTLS_TIMEOUT, "The STARTTLS command has timed out"%string);
   (SSL_CLIENT_STARTTLS_INITSSLCTX_ERROR, "Unable to initialize the SSL Context"%string);
   (SSL_CLIENT_STARTTLS_BIONEWSSLCONNECT_ERROR, "Unable to create the SSL BIO"%string);
   (SSL_CLIENT_STARTTLS_WIN_CERTOPENSYSTEMSTORE_ERROR, "Unable to open the Windows Certificate System Store"%string);
   (SSL_CLIENT_STARTTLS_CTX_SET_DEFAULT_VERIFY_PATHS_ERROR, "Unable to open the specifies that the default locations from which CA certificates are loaded"%string);
   (SSL_CLIENT_STARTTLS_BIO_CONNECT_ERROR, "Unable to connect SSL BIO"%string);
   (SSL_CLIENT_STARTTLS_BIO_HANDSHAKE_ERROR, "Unable to handshake with SSL BIO"%string);
   (SSL_CLIENT_STARTTLS_GET_CERTIFICATE_ERROR, "Unable to get peer certificate"%string);
   (SSL_CLIENT_STARTTLS_VERIFY_RESULT_ERROR, "Unable to verify the result of chain verification"%string);
   (SSL_CLIENT_INITSECURECLIENT_ERROR, "Unable to EHLO the server via the secure channel"%string);
   (SSL_CLIENT_INITSECURECLIENT_TIMEOUT, "The EHLO command via the secure channel timed out"%string);
   (CLIENT_AUTHENTICATE_ERROR, "Unable to authenticate with the credentials provided"%string);
   (CLIENT_AUTHENTICATE_TIMEOUT, "The authentication to the server has timed out"%string);
   (CLIENT_AUTHENTICATE_NONEED, "The authentication is not needed on the server"%string);
   (CLIENT_AUTHENTICATION_METHOD_NOTSUPPORTED, "The authentication method selected is not supported by the server"%string);
   (CLIENT_SENDMAIL_MAILFROM_ERROR, "The MAIL FROM command return an error"%string);
   (CLIENT_SENDMAIL_MAILFROM_TIMEOUT, "The MAIL FROM command timed out"%string);
   (CLIENT_SENDMAIL_RCPTTO_ERROR, "The RCPT TO command return an error"%string);
   (CLIENT_SENDMAIL_RCPTTO_TIMEOUT, "The RCPT TO command timed out"%string);
   (CLIENT_SENDMAIL_DATA_ERROR, "The DATA command return an error"%string);
   (CLIENT_SENDMAIL_DATA_TIMEOUT, "The DATA command timed out"%string);
   (CLIENT_SENDMAIL_HEADERFROM_ERROR, "The From header command return an error"%string);
   (CLIENT_SENDMAIL_HEADERTOANDCC_ERROR, "The To and CC header command return an error"%string);
   (CLIENT_SENDMAIL_HEADERSUBJECT_ERROR, "The Subject header command return an error"%string);
   (CLIENT_SENDMAIL_HEADERCONTENTTYPE_ERROR, "The Content type header command return an error"%string);
   (CLIENT_SENDMAIL_BODYPART_ERROR, "The Body part return an error"%string);
   (CLIENT_SENDMAIL_BODY_ERROR, "The Body command return an error"%string);
   (CLIENT_SENDMAIL_END_DATA_ERROR, "The End data command return an error"%string);
   (CLIENT_SENDMAIL_END_DATA_TIMEOUT, "The End data command timed out"%string);
   (CLIENT_SENDMAIL_QUIT_ERROR, "The QUIT command return an error"%string);
   (SMTPSERVER_AUTHENTICATIONREQUIRED_ERROR, "Authentication required"%string);
   (SMTPSERVER_AUTHENTICATIONTOOWEAK_ERROR, "Authentication mechanism is too weak"%string);
   (SMTPSERVER_CREDENTIALSINVALID_ERROR, "Authentication credentials invalid"%string);
   (SMTPSERVER_ENCRYPTIONREQUIREDFORAUTH_ERROR, "Encryption required for requested authentication mechanism"%string);
   (SMTPSERVER_AUTHENTICATION_UNSUCCESSFUL_GMAIL_ERROR, "Token based authentication failed. See https://support.google.com/mail/thread/204884242/334-authentication-unsuccessful?hl=en"%string);
   (SOCKET_INIT_SESSION_CONNECT_ERROR, "Unable to connect to the socket"%string)].

Example test_errors_getErrorMessage :
  map (fun p => (getErrorMessage (fst p), cpp_getErrorMessage (fst p))) message_tests
  = map (fun p => (B (snd p), B (snd p))) message_tests.
Proof. vm_compute. reflexivity. Qed.

(** ** smtpclientbase_unittest.cpp, smtpclient_unittest.cpp and
    opportunisticsecuresmtpclient_unittest.cpp *)

Definition kinds : list clientkind := [KPlain; KOpp; KForced].

(** What the getters of a client return. *)
Definition getters (c : client) :=
  (c_server c, c_port c, c_batch c, c_timeout c, getCommunicationLog c, c_cred c).

(** The results of a program, and what the getters of client [i] return at
    its end; no operation of these programs uses the network. *)
Definition no_network : env := mkEnv [] [] [] [] [] [] [] [] [] [] [] (fun _ => None) (fun _ => []) (fun _ => []) 0.
Definition after (ops : list op) (i : nat) :=
  let '(r, w) := run ops (initial_world no_network) in
  (r, option_map getters (get_client w i)).

(** smtpclientbase_unittest.cpp:110-138, smtpclient_unittest.cpp:14-42,
    opportunisticsecuresmtpclient_unittest.cpp:26-54: the names the constructor
    refuses. *)
Example test_client_Constructor_ThrowInvalidArgument :
  map (fun k => (client_new k None 587, client_new k (arg "") 587, client_new k (arg "   ") 587)) kinds
  = map (fun _ => (Throw, Throw, Throw)) kinds.
Proof. vm_compute. reflexivity. Qed.

(** smtpclientbase_unittest.cpp:140-145, 216-244, 302-305: a new client. *)
Example test_client_Constructor_WithValidArgs :
  map (fun k => after [ONew k (arg "test") 587] 0) kinds
  = map (fun _ => ([Done 0], Some (arg "test", 587%N, false, 5%N, B "", None))) kinds.
Proof. vm_compute. reflexivity. Qed.

(** smtpclientbase_unittest.cpp:147-175: copy and move. *)
Example test_client_copies :
  map (fun k =>
    (after [ONew k (arg "test") 587; OCopy 0] 1,
     after [ONew k (arg "test") 587; ONew k (arg "another_test") 25; OCopyAssign 1 0] 1,
     after [ONew k (arg "test") 587; OMove 0] 1,
     after [ONew k (arg "test") 587; ONew k (arg "another_test") 25; OMoveAssign 1 0] 1)) kinds
  = map (fun _ =>
    let new := Some (arg "test", 587%N, false, 5%N, B "", None) in
    (([Done 0; Done 0], new), ([Done 0; Done 0; Done 0], new),
     ([Done 0; Done 0], new), ([Done 0; Done 0; Done 0], new))) kinds.
Proof. vm_compute. reflexivity. Qed.

(** smtpclientbase_unittest.cpp:177-214: setServerName. *)
Example test_client_setServerName :
  map (fun k => map (fun n => after [ONew k (arg "test") 587; OSetServer 0 n] 0)
                  [arg "myServer"; None; arg ""; arg "    "]) kinds
  = map (fun _ =>
      [([Done 0; Done 0], Some (arg "myServer", 587%N, false, 5%N, B "", None));
       ([Done 0; Throw], Some (arg "test", 587%N, false, 5%N, B "", None));
       ([Done 0; Throw], Some (arg "test", 587%N, false, 5%N, B "", None));
       ([Done 0; Throw], Some (arg "test", 587%N, false, 5%N, B "", None))]) kinds.
Proof. vm_compute. reflexivity. Qed.

(** smtpclientbase_unittest.cpp:220-232, 307-311: the other setters. *)
Example test_client_setters :
  map (fun k => after [ONew k (arg "127.0.0.1") 587; OSetPort 0 465; OSetBatch 0 true; OSetTimeout 0 2] 0) kinds
  = map (fun _ => ([Done 0; Done 0; Done 0; Done 0],
                   Some (arg "127.0.0.1", 465%N, true, 2%N, B "", None))) kinds.
Proof. vm_compute. reflexivity. Qed.

(** smtpclientbase_unittest.cpp:246-264: setCredentials. *)
Definition abc_123 : credential := mkCred (B "ABC") (B "123") kImplicit.

Example test_client_setCredentials :
  (credential_new (arg "ABC") (arg "123"), cpp_credential_new (B "ABC") (B "123"))
  = (Done abc_123, Done abc_123) /\
  after [ONew KPlain (arg "test") 587; OSetCred 0 abc_123] 0
  = ([Done 0; Done 0], Some (arg "test", 587%N, false, 5%N, B "", Some abc_123)).
Proof. vm_compute. split; reflexivity. Qed.

(** smtpclient_unittest.cpp:50-100 and
    opportunisticsecuresmtpclient_unittest.cpp:62-112: copies and moves keep
    the time limit and the credential; the source of a copy is destroyed
    first. *)
Definition user1 : credential := mkCred (B "user1") (B "pass1") kImplicit.

Example test_client_copies_with_credentials :
  map (fun k =>
    (after [ONew k (arg "server1") 123; OSetCred 0 user1; OSetTimeout 0 8; OCopy 0; ODestroy 0] 1,
     after [ONew k (arg "test") 123; OSetCred 0 user1; OSetTimeout 0 8; ONew k (arg "aaa") 456;
            OCopyAssign 1 0; ODestroy 0] 1,
     after [ONew k (arg "test") 123; OSetCred 0 user1; OSetTimeout 0 8; OMove 0] 1,
     after [ONew k (arg "test") 123; OSetCred 0 user1; OSetTimeout 0 8; ONew k (arg "aaa") 456;
            OMoveAssign 1 0] 1)) kinds
  = map (fun _ =>
    ((repeat (Done 0) 5, Some (arg "server1", 123%N, false, 8%N, B "", Some user1)),
     (repeat (Done 0) 6, Some (arg "test", 123%N, false, 8%N, B "", Some user1)),
     (repeat (Done 0) 4, Some (arg "test", 123%N, false, 8%N, B "", Some user1)),
     (repeat (Done 0) 5, Some (arg "test", 123%N, false, 8%N, B "", Some user1)))) kinds.
Proof. vm_compute. reflexivity. Qed.

(** smtpclientbase_unittest.cpp:266-300: extractReturnCode. *)
Example test_client_extractReturnCode :
  map extractReturnCode
    [arg "220 smtp.gmail.com ESMTP z13sm224346qkj.34 - gsmtp";
     arg "250-smtp.gmail.com at your service, [24.48.180.30]";
     arg "250 smtp.gmail.com at your service, [24.48.180.30]";
     arg "250smtp.gmail.com at your service, [24.48.180.30]";
     arg ""; arg "  "; arg "   "; arg "ABC"; None]
  = [220; 250; 250; 250; -1; -1; -1; -1; -1].
Proof. vm_compute. reflexivity. Qed.

(** smtpclientbase_unittest.cpp:313-376: extractAuthenticationOptions. *)
Example test_client_extractAuthenticationOptions :
  map extractAuthenticationOptions
    [None; arg ""; arg "    ";
     Some (B "250-SIZE 35882577" ++ CRLF ++ B "250-8BITMIME" ++ CRLF);
     Some (B "250-AUTH PLAIN" ++ CRLF);
     Some (B "250-AUTH LOGIN PLAIN" ++ CRLF);
     Some (B "250-jedubuntuserver Hello [192.168.1.144]Haraka is at your service." ++ CRLF ++
           B "250-PIPELINING" ++ CRLF ++ B "250-8BITMIME" ++ CRLF ++ B "250-SMTPUTF8" ++ CRLF ++
           B "250-SIZE 0" ++ CRLF ++ B "250 AUTH PLAIN LOGIN");
     Some (B "250-AUTH LOGIN PLAIN XOAUTH2 PLAIN-CLIENTTOKEN OAUTHBEARER XOAUTH" ++ CRLF)]
  = [None; None; None; None;
     Some (mkAuth true false false false false false);
     Some (mkAuth true true false false false false);
     Some (mkAuth true true false false false false);
     Some (mkAuth true true true true true true)].
Proof. vm_compute. reflexivity. Qed.

(** smtpclientbase_unittest.cpp:378-390: getErrorMessage. *)
Example test_client_getErrorMessage :
  (getErrorMessage 0, getErrorMessage (-1), getErrorMessage SMTPSERVER_ENCRYPTIONREQUIREDFORAUTH_ERROR)
  = (B "No message correspond to this error code", B "Unable to create the socket",
     B "Encryption required for requested authentication mechanism").
Proof. vm_compute. reflexivity. Qed.

(** smtpclientbase_unittest.cpp:392-434: getErrorMessage_r, with buffers whose
    content does not matter. *)
Definition junk (n : nat) : str := repeat "x"%char n.
Definition text_in (o : outcome (Z * option str)) : option (Z * option str) :=
  match o with Done (r, b) => Some (r, option_map cstr b) | _ => None end.

Example test_client_getErrorMessage_r :
  getErrorMessage_r (-1) None 0 = Done (-1, None) /\
  getErrorMessage_r (-1) (Some (junk 6)) 0 = Done (-1, Some (junk 6)) /\
  cpp_getErrorMessage_r 0 (junk 1024) = Done (0, B "No message correspond to this error code") /\
  text_in (getErrorMessage_r SOCKET_INIT_SESSION_CREATION_ERROR (Some (junk 6)) 6) = Some (5, arg "Unabl") /\
  cpp_getErrorMessage_r SOCKET_INIT_SESSION_CREATION_ERROR (junk 1024)
    = Done (0, B "Unable to create the socket") /\
  text_in (getErrorMessage_r SOCKET_INIT_SESSION_CREATION_ERROR (Some (junk 50)) 50)
    = Some (0, arg "Unable to create the socket").
Proof. vm_compute. repeat split; reflexivity. Qed.

(** smtpclientbase_unittest.cpp:436-464: generateHeaderAddressValues. *)
Example test_client_generateHeaderAddressValues :
  map generateHeaderAddressValues
    [[]; [mkAddr (B "test@test.com") (B "test")]; [mkAddr (B "test@test.com") (B "")];
     [mkAddr (B "test@test.com") (B "test"); mkAddr (B "test2@test.com") (B "test2")];
     [mkAddr (B "test@test.com") (B ""); mkAddr (B "test2@test.com") (B "test2")]]
  = [B ""; B "test <test@test.com>"; B "test@test.com";
     B "test <test@test.com>, test2 <test2@test.com>";
     B "test@test.com, test2 <test2@test.com>"].
Proof. vm_compute. reflexivity. Qed.

(** opportunisticsecuresmtpclient_unittest.cpp:114-143: isStartTLSSupported. *)
Example test_client_isStartTLSSupported :
  map isStartTLSSupported
    [None; arg ""; arg "   ";
     Some (B "250-SIZE 35882577" ++ CRLF ++ B "250-8BITMIME" ++ CRLF ++ B "250-STARTTLS" ++ CRLF ++
           B "250-ENHANCEDSTATUSCODES" ++ CRLF ++ B "250-PIPELINING" ++ CRLF ++
           B "250-CHUNKING" ++ CRLF ++ B "250 SMTPUTF8");
     Some (B "250-SIZE 35882577" ++ CRLF ++ B "250-8BITMIME" ++ CRLF ++
           B "250-ENHANCEDSTATUSCODES" ++ CRLF ++ B "250-PIPELINING" ++ CRLF ++
           B "250-CHUNKING" ++ CRLF ++ B "250 SMTPUTF8")]
  = [Done false; Done false; Done false; Done true; Done false].
Proof. vm_compute. reflexivity. Qed.

(** ** The message tests *)

Definition addr (s : string) : address := mkAddr (B s) (B "").
Definition att (s : string) : attachment := mkAtt (B "") (B s) (B "").

(** message_unittest.cpp:105-128: a missing or empty subject and body. *)
Example test_message_minimum_data :
  map (fun p => message_new1 Plaintext (addr "test@test.com") (addr "test2@test.com") (fst p) (snd p) None None None 0)
    [(arg "", arg ""); (None, arg ""); (arg "", None)]
  = repeat (mkMsg Plaintext (addr "test@test.com") (AArr [addr "test2@test.com"]) (ANull 0) (ANull 0)
              (B "") (B "") (ANull 0)) 3.
Proof. vm_compute. reflexivity. Qed.

(** message_unittest.cpp:51-77, 129-137: the two sample messages. *)
Example test_message_WithCompleteInfos :
  message_new1 Plaintext (addr "from@from.com") (addr "to@to.com") (arg "Subject") (arg "Body")
    (Some (addr "cc@cc.com")) (Some (addr "bcc@bcc.com")) (Some [att "file1.png"; att "file2.png"]) 2
  = mkMsg Plaintext (addr "from@from.com") (AArr [addr "to@to.com"]) (AArr [addr "cc@cc.com"])
      (AArr [addr "bcc@bcc.com"]) (B "Subject") (B "Body") (AArr [att "file1.png"; att "file2.png"]).
Proof. vm_compute. reflexivity. Qed.

Definition sample2 : message :=
  mkMsg Plaintext (addr "from@from.com") (AArr [addr "to1@to.com"; addr "to2@to.com"])
    (AArr [addr "cc1@cc.com"; addr "cc2@cc.com"]) (AArr [addr "bcc1@bcc.com"; addr "bcc2@bcc.com"])
    (B "Subject") (B "Body") (AArr [att "file1.png"; att "file2.png"]).

Example test_message_WithExtendedInfos :
  message_new Plaintext (addr "from@from.com") (Some [addr "to1@to.com"; addr "to2@to.com"]) 2
    (arg "Subject") (arg "Body")
    (Some [addr "cc1@cc.com"; addr "cc2@cc.com"]) 2
    (Some [addr "bcc1@bcc.com"; addr "bcc2@bcc.com"]) 2
    (Some [att "file1.png"; att "file2.png"]) 2
  = sample2.
Proof. vm_compute. reflexivity. Qed.

(** message_unittest.cpp:139-163: copy and move, in the value model and in the
    ownership model. *)
Example test_message_CopyConstructor : message_copy sample2 = Done sample2.
Proof. vm_compute. reflexivity. Qed.

Definition heap_sample (to cc bcc : list string) : H msg_obj :=
  let fix addrs l := match l with
    | [] => hret []
    | s :: r => a <~ addr_new (lit s) (lit "") ;; q <~ addrs r ;; hret (a :: q)
    end in
  f <~ addr_new (lit "from@from.com") (lit "") ;;
  t <~ addrs to ;; c <~ addrs cc ;; b <~ addrs bcc ;;
  a1 <~ att_new (lit "file1.png") (lit "") (lit "") ;;
  a2 <~ att_new (lit "file2.png") (lit "") (lit "") ;;
  msg_new f (AArr t) (AArr c) (AArr b) (lit "Subject") (lit "Body") (AArr [a1; a2]).

Definition heap_sample1 := heap_sample ["to@to.com"]%string ["cc@cc.com"]%string ["bcc@bcc.com"]%string.
Definition heap_sample2 :=
  heap_sample ["to1@to.com"; "to2@to.com"]%string ["cc1@cc.com"; "cc2@cc.com"]%string
    ["bcc1@bcc.com"; "bcc2@bcc.com"]%string.

Definition seen (s : string) : option str * option str := (arg s, arg "").
Definition seen_att (s : string) : option str * option str * option str := (arg "", arg s, arg "").
Definition seen_sample2 : msg_view :=
  mkView (seen "from@from.com") (Some [seen "to1@to.com"; seen "to2@to.com"]) 2
    (Some [seen "cc1@cc.com"; seen "cc2@cc.com"]) 2
    (Some [seen "bcc1@bcc.com"; seen "bcc2@bcc.com"]) 2 (arg "Subject") (arg "Body")
    (Some [seen_att "file1.png"; seen_att "file2.png"]) 2.

Example test_message_heap :
  [on_heap (m <~ heap_sample2 ;; read_msg m);
   on_heap (m1 <~ heap_sample2 ;; m2 <~ msg_copy m1 ;; read_msg m2);
   on_heap (m1 <~ heap_sample2 ;; m2 <~ heap_sample1 ;; m2 <~ msg_assign m2 m1 ;; read_msg m2);
   on_heap (m1 <~ heap_sample2 ;; r <~ msg_move m1 ;; read_msg (fst r));
   on_heap (m1 <~ heap_sample2 ;; m2 <~ heap_sample1 ;; r <~ msg_move_assign m2 m1 ;; read_msg (fst r))]
  = repeat (Done seen_sample2) 5.
Proof. vm_compute. reflexivity. Qed.

(** plaintextmessage_unittest.cpp:50-105. *)
Example test_plaintextmessage :
  message_new1 Plaintext (mkAddr (B "myfromaddress@test.com") (B "Test Address Display"))
    (addr "youraddress@domain.com") (arg "This is a test (Subject)")
    (Some (B "Hello" ++ [LF] ++ B "How are you?")) None None None 0
  = mkMsg Plaintext (mkAddr (B "myfromaddress@test.com") (B "Test Address Display"))
      (AArr [addr "youraddress@domain.com"]) (ANull 0) (ANull 0)
      (B "This is a test (Subject)") (B "Hello" ++ [LF] ++ B "How are you?") (ANull 0) /\
  msg_mime Plaintext = B "text/plain" /\
  address_eqb (addr "youraddress@domain.com") (addr "youraddress@domain.com") = true.
Proof. vm_compute. repeat split; reflexivity. Qed.

(** message_cpp_unittest.cpp:83-112: the constructor of the [std::string]
    interface. *)
Example test_cpp_message :
  cpp_message_new Plaintext (addr "test@test.com") [addr "test2@test.com"] (B "") (B "") [] [] []
  = Done (mkCM Plaintext (addr "test@test.com") [addr "test2@test.com"] (B "") (B "") [] [] []) /\
  cpp_message_new Plaintext (addr "from@from.com") [] (B "TestSubject") (B "TestBody") [] [] [] = Throw.
Proof. vm_compute. split; reflexivity. Qed.

(** htmlmessage_cpp_unittest.cpp and plaintextmessage_cpp_unittest.cpp: the
    constructors, the MIME types and the conversions, whatever the C++
    implementation decides. *)
Definition cpp_sample (k : msgkind) : outcome cpp_message :=
  cpp_message_new k (addr "from@from.com") [addr "to1@to.com"; addr "to2@to.com"] (B "Subject") (B "Body")
    [addr "cc1@cc.com"; addr "cc2@cc.com"] [addr "bcc1@bcc.com"; addr "bcc2@bcc.com"]
    [att "file1.png"; att "file2.png"].

Definition kind_of_sample (k : msgkind) : message :=
  mkMsg k (m_from sample2) (m_to sample2) (m_cc sample2) (m_bcc sample2) (m_subject sample2)
    (m_body sample2) (m_atts sample2).

Definition implementations : list implementation :=
  [mkImpl true true; mkImpl true false; mkImpl false true; mkImpl false false].

Example test_cpp_conversions :
  map (fun k => map (fun im => obind (cpp_sample k) (toStdMessage im)) implementations) [Plaintext; Html]
  = map (fun k => repeat (Done (kind_of_sample k)) 4) [Plaintext; Html] /\
  map (fun im => obind (obind (cpp_message_new Html (addr "from@from.com")
         [addr "to1@to.com"; addr "to2@to.com"] (B "Subject") (B "Body") [] [] []) (toStdMessage im))
         (fun m => Done (m_from m, m_to m, m_subject m, m_body m))) implementations
  = repeat (Done (addr "from@from.com", AArr [addr "to1@to.com"; addr "to2@to.com"],
                  B "Subject", B "Body")) 4 /\
  msg_mime Html = B "text/html" /\ msg_mime Plaintext = B "text/plain".
Proof. vm_compute. repeat split; reflexivity. Qed.
