(** Generated by tools/gen_conform.py: JSON files of the test suite of /repo
    (spine_json_lib/test/data/original/), as [json.load] returns them. *)
From Verif Require Import PyBase PyNum Json.
From Coq Require Import SpecFloat.
Open Scope string_scope.
Open Scope Z_scope.

(** original.json *)
Definition original_json : val :=
 VDict [("animations", VDict [("anim1", VDict [("bones", VDict [("bone3[scale:5]", VDict [("shear", VList [VDict [("y", VFloat (S754_finite false 5764607523034235 (-57)))]])]);
 ("master[scale:0.5]", VDict [("translate", VList [VDict [("x", VFloat (S754_finite false 5819495143492813 (-47)));
 ("y", VFloat (S754_finite false 8275364315293286 (-50)))]; VDict [("time", VFloat (S754_finite false 4503599627370496 (-53)));
 ("x", VFloat (S754_finite false 5270443017046589 (-44)));
 ("y", VFloat (S754_finite false 5432467050515661 (-48)))]])])]);
 ("slots", VDict [("bone2_slot2[scale:2]", VDict [("attachment", VList [VDict [("name", VStr "image_1")]])]);
 ("bone3_slot_check_image", VDict [("attachment", VList [VDict [("name", VNone)]])])])]);
 ("anim2", VDict [("bones", VDict [("bone5[scale:0.02]", VDict [("rotate", VList [VDict [("angle", VFloat (S754_finite false 5764607523034235 (-57)));
 ("time", VFloat (S754_finite false 6305039478318694 (-53)))]])])]);
 ("slots", VDict [("bone2_slot2[scale:2]", VDict [("attachment", VList [VDict [("name", VStr "image_1")]])]);
 ("freepik2[scale:0.1]", VDict [("attachment", VList [VDict [("name", VNone)]; VDict [("name", VStr "freepik");
 ("time", VFloat (S754_finite false 6305039478318694 (-53)))]])]);
 ("freepik_copy", VDict [("attachment", VList [VDict [("name", VNone)]])]);
 ("path", VDict [("attachment", VList [VDict [("name", VNone)]])])])])]);
 ("bones", VList [VDict [("name", VStr "root")]; VDict [("length", VFloat (S754_finite false 8291549126454149 (-46)));
 ("name", VStr "master[scale:0.5]");
 ("parent", VStr "root");
 ("rotation", VFloat (S754_finite true 8458323050155213 (-48)));
 ("x", VFloat (S754_finite true 6368371348078592 (-46)));
 ("y", VInt (293))]; VDict [("name", VStr "bone");
 ("parent", VStr "master[scale:0.5]")]; VDict [("color", VStr "06e7efff");
 ("length", VFloat (S754_finite false 7809523228837151 (-46)));
 ("name", VStr "bone2");
 ("parent", VStr "root");
 ("rotation", VFloat (S754_finite true 4519080751089582 (-47)));
 ("x", VFloat (S754_finite true 8197958696697856 (-46)));
 ("y", VInt (233))]; VDict [("color", VStr "00ff1cff");
 ("length", VFloat (S754_finite false 7201537279142134 (-46)));
 ("name", VStr "bone3[scale:5]");
 ("parent", VStr "root");
 ("rotation", VFloat (S754_finite true 4763963980827853 (-47)));
 ("x", VFloat (S754_finite true 4556376185503744 (-45)));
 ("y", VInt (175))]; VDict [("color", VStr "ff8509ff");
 ("length", VInt (103));
 ("name", VStr "bone4[scale:string]");
 ("parent", VStr "root");
 ("rotation", VFloat (S754_finite true 5110178202181960 (-47)));
 ("x", VFloat (S754_finite true 5119326138925056 (-45)));
 ("y", VInt (118))]; VDict [("color", VStr "ff0000ff");
 ("length", VFloat (S754_finite false 8026258960904356 (-46)));
 ("name", VStr "bone5[scale:0.02]");
 ("parent", VStr "master[scale:0.5]");
 ("rotation", VFloat (S754_finite false 5314247560297185 (-51)));
 ("x", VFloat (S754_finite false 8074109706945167 (-46)));
 ("y", VFloat (S754_finite true 5764607523034235 (-53)))]]);
 ("skeleton", VDict [("audio", VStr "");
 ("hash", VStr "snX16+rYPGKxkOts+M2LI4p7QVU");
 ("height", VFloat (S754_finite false 5003305671962132 (-43)));
 ("images", VStr "./images");
 ("spine", VStr "3.8.59");
 ("width", VFloat (S754_finite false 7566399217703322 (-43)));
 ("x", VFloat (S754_finite true 5331839746341601 (-45)));
 ("y", VFloat (S754_finite false 5661869156534845 (-47)))]);
 ("skins", VList [VDict [("attachments", VDict [("bone2_slot2[scale:2]", VDict [("image_1", VDict [("height", VInt (512));
 ("scaleX", VFloat (S754_finite false 8257800276746541 (-55)));
 ("scaleY", VFloat (S754_finite false 8257800276746541 (-55)));
 ("width", VInt (512));
 ("x", VFloat (S754_finite false 7228277401929646 (-47)));
 ("y", VFloat (S754_finite false 4965218589175972 (-50)))])]);
 ("bone3_slot_check_image", VDict [("check_image", VDict [("edges", VList [VInt (0); VInt (2); VInt (2); VInt (4); VInt (4); VInt (6); VInt (0); VInt (6)]);
 ("height", VInt (352));
 ("hull", VInt (4));
 ("triangles", VList [VInt (1); VInt (2); VInt (3); VInt (1); VInt (3); VInt (0)]);
 ("type", VStr "mesh");
 ("uvs", VList [VInt (1); VInt (1); VInt (0); VInt (1); VInt (0); VInt (0); VInt (1); VInt (0)]);
 ("vertices", VList [VFloat (S754_finite false 5986620910914765 (-45)); VFloat (S754_finite true 6776510064309043 (-47)); VFloat (S754_finite false 5941936758361948 (-47)); VFloat (S754_finite true 6776510064309043 (-47)); VFloat (S754_finite false 5941936758361948 (-47)); VFloat (S754_finite false 5614722097935811 (-46)); VFloat (S754_finite false 5986620910914765 (-45)); VFloat (S754_finite false 5614722097935811 (-46))]);
 ("width", VInt (352))])]);
 ("freepik_copy", VDict [("freepik_copy", VDict [("height", VInt (150));
 ("rotation", VFloat (S754_finite true 4661225614328463 (-51)));
 ("width", VInt (150));
 ("x", VFloat (S754_finite false 8721502153379676 (-44)));
 ("y", VFloat (S754_finite false 4683655651535094 (-43)))])]);
 ("path", VDict [("path", VDict [("lengths", VList [VFloat (S754_finite false 8997171708695675 (-43)); VFloat (S754_finite false 4892386938952090 (-41))]);
 ("type", VStr "path");
 ("vertexCount", VInt (6));
 ("vertices", VList [VFloat (S754_finite true 5675591061649490 (-45)); VFloat (S754_finite true 5341339526805586 (-43)); VFloat (S754_finite true 8030481085555016 (-46)); VFloat (S754_finite true 5599944661658501 (-44)); VFloat (S754_finite true 5907456073714893 (-46)); VFloat (S754_finite true 8025555273462579 (-46)); VFloat (S754_finite false 6079155809508393 (-44)); VFloat (S754_finite false 6305391322039583 (-45)); VFloat (S754_finite false 6486151033645957 (-43)); VFloat (S754_finite false 4521543657135800 (-45)); VFloat (S754_finite false 4520488125973135 (-42)); VFloat (S754_finite false 6355704974126612 (-46))])])])]);
 ("name", VStr "default")]; VDict [("attachments", VDict [("freepik2[scale:0.1]", VDict [("freepik", VDict [("height", VInt (300));
 ("rotation", VFloat (S754_finite false 7796856854885171 (-48)));
 ("width", VInt (300));
 ("x", VFloat (S754_finite false 7341219236334797 (-44)));
 ("y", VFloat (S754_finite false 6155154053220270 (-45)))]);
 ("unnamed", VDict [("height", VInt (300));
 ("rotation", VFloat (S754_finite false 7794042105118065 (-48)));
 ("width", VInt (300));
 ("x", VFloat (S754_finite false 5293136937043886 (-45)));
 ("y", VFloat (S754_finite false 5388838429125509 (-47)))])])]);
 ("name", VStr "skin2")]; VDict [("attachments", VDict [("freepik2[scale:0.1]", VDict [("freepik", VDict [("height", VInt (300));
 ("rotation", VFloat (S754_finite false 7796856854885171 (-48)));
 ("width", VInt (300));
 ("x", VFloat (S754_finite false 5186176445893837 (-45)));
 ("y", VFloat (S754_finite false 4687965737115976 (-47)))]);
 ("unnamed", VDict [("height", VInt (300));
 ("rotation", VFloat (S754_finite true 5355413275641119 (-45)));
 ("width", VInt (300));
 ("x", VFloat (S754_finite false 5293136937043886 (-45)));
 ("y", VFloat (S754_finite false 5388838429125509 (-47)))])])]);
 ("name", VStr "skin3")]]);
 ("slots", VList [VDict [("attachment", VStr "unnamed");
 ("bone", VStr "bone5[scale:0.02]");
 ("name", VStr "freepik2[scale:0.1]")]; VDict [("bone", VStr "master[scale:0.5]");
 ("name", VStr "freepik")]; VDict [("attachment", VStr "check_image");
 ("bone", VStr "bone3[scale:5]");
 ("name", VStr "bone3_slot_check_image")]; VDict [("bone", VStr "bone4[scale:string]");
 ("name", VStr "empty")]; VDict [("attachment", VStr "image_1");
 ("bone", VStr "bone2");
 ("name", VStr "bone2_slot2[scale:2]")]; VDict [("bone", VStr "bone2");
 ("name", VStr "bone2_slot1")]; VDict [("attachment", VStr "path");
 ("bone", VStr "bone5[scale:0.02]");
 ("name", VStr "path")]; VDict [("attachment", VStr "freepik_copy");
 ("bone", VStr "bone");
 ("name", VStr "freepik_copy")]])].

(** image_paths.json *)
Definition image_paths_json : val :=
 VDict [("image_1", VDict [("path", VStr "./images/image_1");
 ("scale", VFloat (S754_finite false 4503599627370496 (-51)))]);
 ("freepik_copy", VDict [("path", VStr "./images/freepik_copy");
 ("scale", VFloat (S754_finite false 4503599627370496 (-53)))]);
 ("unnamed", VDict [("path", VStr "./images/unnamed");
 ("scale", VFloat (S754_finite false 4611686018427388 (-62)))]);
 ("check_image", VDict [("path", VStr "./images/check_image");
 ("scale", VFloat (S754_finite false 5629499534213120 (-50)))]);
 ("freepik", VDict [("path", VStr "./images/freepik");
 ("scale", VFloat (S754_finite false 4611686018427388 (-62)))])].

