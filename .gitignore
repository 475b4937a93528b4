rocq/theories/Tmp.v
