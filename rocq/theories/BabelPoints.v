(** ISO 8859 as the standards define it: the code point of each byte from 160 on; [None]
    for bytes that have no character.  Bytes below 160 stand for themselves. *)
From Coq Require Import NArith.
From Verif Require Import Prelude.
Open Scope N_scope.

Definition points_1 : list (option N) :=
  [
   Some 160; Some 161; Some 162; Some 163; Some 164; Some 165; Some 166; Some 167; Some 168; Some 169; Some 170; Some 171;
   Some 172; Some 173; Some 174; Some 175; Some 176; Some 177; Some 178; Some 179; Some 180; Some 181; Some 182; Some 183;
   Some 184; Some 185; Some 186; Some 187; Some 188; Some 189; Some 190; Some 191; Some 192; Some 193; Some 194; Some 195;
   Some 196; Some 197; Some 198; Some 199; Some 200; Some 201; Some 202; Some 203; Some 204; Some 205; Some 206; Some 207;
   Some 208; Some 209; Some 210; Some 211; Some 212; Some 213; Some 214; Some 215; Some 216; Some 217; Some 218; Some 219;
   Some 220; Some 221; Some 222; Some 223; Some 224; Some 225; Some 226; Some 227; Some 228; Some 229; Some 230; Some 231;
   Some 232; Some 233; Some 234; Some 235; Some 236; Some 237; Some 238; Some 239; Some 240; Some 241; Some 242; Some 243;
   Some 244; Some 245; Some 246; Some 247; Some 248; Some 249; Some 250; Some 251; Some 252; Some 253; Some 254; Some 255
  ].

Definition points_2 : list (option N) :=
  [
   Some 160; Some 260; Some 728; Some 321; Some 164; Some 317; Some 346; Some 167; Some 168; Some 352; Some 350; Some 356;
   Some 377; Some 173; Some 381; Some 379; Some 176; Some 261; Some 731; Some 322; Some 180; Some 318; Some 347; Some 711;
   Some 184; Some 353; Some 351; Some 357; Some 378; Some 733; Some 382; Some 380; Some 340; Some 193; Some 194; Some 258;
   Some 196; Some 313; Some 262; Some 199; Some 268; Some 201; Some 280; Some 203; Some 282; Some 205; Some 206; Some 270;
   Some 272; Some 323; Some 327; Some 211; Some 212; Some 336; Some 214; Some 215; Some 344; Some 366; Some 218; Some 368;
   Some 220; Some 221; Some 354; Some 223; Some 341; Some 225; Some 226; Some 259; Some 228; Some 314; Some 263; Some 231;
   Some 269; Some 233; Some 281; Some 235; Some 283; Some 237; Some 238; Some 271; Some 273; Some 324; Some 328; Some 243;
   Some 244; Some 337; Some 246; Some 247; Some 345; Some 367; Some 250; Some 369; Some 252; Some 253; Some 355; Some 729
  ].

Definition points_3 : list (option N) :=
  [
   Some 160; Some 294; Some 728; Some 163; Some 164; None; Some 292; Some 167; Some 168; Some 304; Some 350; Some 286;
   Some 308; Some 173; None; Some 379; Some 176; Some 295; Some 178; Some 179; Some 180; Some 181; Some 293; Some 183;
   Some 184; Some 305; Some 351; Some 287; Some 309; Some 189; None; Some 380; Some 192; Some 193; Some 194; None;
   Some 196; Some 266; Some 264; Some 199; Some 200; Some 201; Some 202; Some 203; Some 204; Some 205; Some 206; Some 207;
   None; Some 209; Some 210; Some 211; Some 212; Some 288; Some 214; Some 215; Some 284; Some 217; Some 218; Some 219;
   Some 220; Some 364; Some 348; Some 223; Some 224; Some 225; Some 226; None; Some 228; Some 267; Some 265; Some 231;
   Some 232; Some 233; Some 234; Some 235; Some 236; Some 237; Some 238; Some 239; None; Some 241; Some 242; Some 243;
   Some 244; Some 289; Some 246; Some 247; Some 285; Some 249; Some 250; Some 251; Some 252; Some 365; Some 349; Some 729
  ].

Definition points_4 : list (option N) :=
  [
   Some 160; Some 260; Some 312; Some 342; Some 164; Some 296; Some 315; Some 167; Some 168; Some 352; Some 274; Some 290;
   Some 358; Some 173; Some 381; Some 175; Some 176; Some 261; Some 731; Some 343; Some 180; Some 297; Some 316; Some 711;
   Some 184; Some 353; Some 275; Some 291; Some 359; Some 330; Some 382; Some 331; Some 256; Some 193; Some 194; Some 195;
   Some 196; Some 197; Some 198; Some 302; Some 268; Some 201; Some 280; Some 203; Some 278; Some 205; Some 206; Some 298;
   Some 272; Some 325; Some 332; Some 310; Some 212; Some 213; Some 214; Some 215; Some 216; Some 370; Some 218; Some 219;
   Some 220; Some 360; Some 362; Some 223; Some 257; Some 225; Some 226; Some 227; Some 228; Some 229; Some 230; Some 303;
   Some 269; Some 233; Some 281; Some 235; Some 279; Some 237; Some 238; Some 299; Some 273; Some 326; Some 333; Some 311;
   Some 244; Some 245; Some 246; Some 247; Some 248; Some 371; Some 250; Some 251; Some 252; Some 361; Some 363; Some 729
  ].

Definition points_5 : list (option N) :=
  [
   Some 160; Some 1025; Some 1026; Some 1027; Some 1028; Some 1029; Some 1030; Some 1031; Some 1032; Some 1033; Some 1034; Some 1035;
   Some 1036; Some 173; Some 1038; Some 1039; Some 1040; Some 1041; Some 1042; Some 1043; Some 1044; Some 1045; Some 1046; Some 1047;
   Some 1048; Some 1049; Some 1050; Some 1051; Some 1052; Some 1053; Some 1054; Some 1055; Some 1056; Some 1057; Some 1058; Some 1059;
   Some 1060; Some 1061; Some 1062; Some 1063; Some 1064; Some 1065; Some 1066; Some 1067; Some 1068; Some 1069; Some 1070; Some 1071;
   Some 1072; Some 1073; Some 1074; Some 1075; Some 1076; Some 1077; Some 1078; Some 1079; Some 1080; Some 1081; Some 1082; Some 1083;
   Some 1084; Some 1085; Some 1086; Some 1087; Some 1088; Some 1089; Some 1090; Some 1091; Some 1092; Some 1093; Some 1094; Some 1095;
   Some 1096; Some 1097; Some 1098; Some 1099; Some 1100; Some 1101; Some 1102; Some 1103; Some 8470; Some 1105; Some 1106; Some 1107;
   Some 1108; Some 1109; Some 1110; Some 1111; Some 1112; Some 1113; Some 1114; Some 1115; Some 1116; Some 167; Some 1118; Some 1119
  ].

Definition points_6 : list (option N) :=
  [
   Some 160; None; None; None; Some 164; None; None; None; None; None; None; None;
   Some 1548; Some 173; None; None; None; None; None; None; None; None; None; None;
   None; None; None; Some 1563; None; None; None; Some 1567; None; Some 1569; Some 1570; Some 1571;
   Some 1572; Some 1573; Some 1574; Some 1575; Some 1576; Some 1577; Some 1578; Some 1579; Some 1580; Some 1581; Some 1582; Some 1583;
   Some 1584; Some 1585; Some 1586; Some 1587; Some 1588; Some 1589; Some 1590; Some 1591; Some 1592; Some 1593; Some 1594; None;
   None; None; None; None; Some 1600; Some 1601; Some 1602; Some 1603; Some 1604; Some 1605; Some 1606; Some 1607;
   Some 1608; Some 1609; Some 1610; Some 1611; Some 1612; Some 1613; Some 1614; Some 1615; Some 1616; Some 1617; Some 1618; None;
   None; None; None; None; None; None; None; None; None; None; None; None
  ].

Definition points_7 : list (option N) :=
  [
   Some 160; Some 8216; Some 8217; Some 163; Some 8364; Some 8367; Some 166; Some 167; Some 168; Some 169; Some 890; Some 171;
   Some 172; Some 173; None; Some 8213; Some 176; Some 177; Some 178; Some 179; Some 900; Some 901; Some 902; Some 183;
   Some 904; Some 905; Some 906; Some 187; Some 908; Some 189; Some 910; Some 911; Some 912; Some 913; Some 914; Some 915;
   Some 916; Some 917; Some 918; Some 919; Some 920; Some 921; Some 922; Some 923; Some 924; Some 925; Some 926; Some 927;
   Some 928; Some 929; None; Some 931; Some 932; Some 933; Some 934; Some 935; Some 936; Some 937; Some 938; Some 939;
   Some 940; Some 941; Some 942; Some 943; Some 944; Some 945; Some 946; Some 947; Some 948; Some 949; Some 950; Some 951;
   Some 952; Some 953; Some 954; Some 955; Some 956; Some 957; Some 958; Some 959; Some 960; Some 961; Some 962; Some 963;
   Some 964; Some 965; Some 966; Some 967; Some 968; Some 969; Some 970; Some 971; Some 972; Some 973; Some 974; None
  ].

Definition points_8 : list (option N) :=
  [
   Some 160; None; Some 162; Some 163; Some 164; Some 165; Some 166; Some 167; Some 168; Some 169; Some 215; Some 171;
   Some 172; Some 173; Some 174; Some 175; Some 176; Some 177; Some 178; Some 179; Some 180; Some 181; Some 182; Some 183;
   Some 184; Some 185; Some 247; Some 187; Some 188; Some 189; Some 190; None; None; None; None; None;
   None; None; None; None; None; None; None; None; None; None; None; None;
   None; None; None; None; None; None; None; None; None; None; None; None;
   None; None; None; Some 8215; Some 1488; Some 1489; Some 1490; Some 1491; Some 1492; Some 1493; Some 1494; Some 1495;
   Some 1496; Some 1497; Some 1498; Some 1499; Some 1500; Some 1501; Some 1502; Some 1503; Some 1504; Some 1505; Some 1506; Some 1507;
   Some 1508; Some 1509; Some 1510; Some 1511; Some 1512; Some 1513; Some 1514; None; None; Some 8206; Some 8207; None
  ].

Definition points_9 : list (option N) :=
  [
   Some 160; Some 161; Some 162; Some 163; Some 164; Some 165; Some 166; Some 167; Some 168; Some 169; Some 170; Some 171;
   Some 172; Some 173; Some 174; Some 175; Some 176; Some 177; Some 178; Some 179; Some 180; Some 181; Some 182; Some 183;
   Some 184; Some 185; Some 186; Some 187; Some 188; Some 189; Some 190; Some 191; Some 192; Some 193; Some 194; Some 195;
   Some 196; Some 197; Some 198; Some 199; Some 200; Some 201; Some 202; Some 203; Some 204; Some 205; Some 206; Some 207;
   Some 286; Some 209; Some 210; Some 211; Some 212; Some 213; Some 214; Some 215; Some 216; Some 217; Some 218; Some 219;
   Some 220; Some 304; Some 350; Some 223; Some 224; Some 225; Some 226; Some 227; Some 228; Some 229; Some 230; Some 231;
   Some 232; Some 233; Some 234; Some 235; Some 236; Some 237; Some 238; Some 239; Some 287; Some 241; Some 242; Some 243;
   Some 244; Some 245; Some 246; Some 247; Some 248; Some 249; Some 250; Some 251; Some 252; Some 305; Some 351; Some 255
  ].

Definition points_15 : list (option N) :=
  [
   Some 160; Some 161; Some 162; Some 163; Some 8364; Some 165; Some 352; Some 167; Some 353; Some 169; Some 170; Some 171;
   Some 172; Some 173; Some 174; Some 175; Some 176; Some 177; Some 178; Some 179; Some 381; Some 181; Some 182; Some 183;
   Some 382; Some 185; Some 186; Some 187; Some 338; Some 339; Some 376; Some 191; Some 192; Some 193; Some 194; Some 195;
   Some 196; Some 197; Some 198; Some 199; Some 200; Some 201; Some 202; Some 203; Some 204; Some 205; Some 206; Some 207;
   Some 208; Some 209; Some 210; Some 211; Some 212; Some 213; Some 214; Some 215; Some 216; Some 217; Some 218; Some 219;
   Some 220; Some 221; Some 222; Some 223; Some 224; Some 225; Some 226; Some 227; Some 228; Some 229; Some 230; Some 231;
   Some 232; Some 233; Some 234; Some 235; Some 236; Some 237; Some 238; Some 239; Some 240; Some 241; Some 242; Some 243;
   Some 244; Some 245; Some 246; Some 247; Some 248; Some 249; Some 250; Some 251; Some 252; Some 253; Some 254; Some 255
  ].
